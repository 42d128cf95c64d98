(** C16-C20: the effect of events on occupations. *)
From Verif Require Import PBase SModel SGeo SEvent SBuild SPlain SStep SBucket PLattice PProcess PMpi PRateTable PMatcher PPerform PStep PGeo PPossible PRun PEffect PRematch PEvent PBuild PPlain PRow PStepInv PBucket XCheck XSystems XRows.
Open Scope string_scope.
Open Scope list_scope.
Open Scope Z_scope.

Lemma builtFrom_facts ranks L cf it spec i p : userInput ranks L cf it spec -> zget (in_procs it) i = Some p ->
  sane p /\ slots p /\ (forall e, In e (pr_ml p) -> zlen (pe_match e) = zlen (cf_ptypes cf) /\ zlen (pe_upd e) = zlen (cf_ptypes cf)).
Proof.
  intros UI Ep. pose proof (ui_procs _ _ _ _ _ UI i p Ep) as B. pose proof (ui_pt _ _ _ _ _ UI) as WP. pose proof (ui_unit _ _ _ _ _ UI) as HU.
  pose proof (wfl_unit _ (wi_lat _ _ _ _ (ui_wf _ _ _ _ _ UI))) as HU2. unfold builtFrom in B. destruct (spec i) as [rows|rows]; destruct B as (WR & basis & B).
  - destruct (builtPlain_spec _ _ _ _ _ WP B) as [es PO]. split; [eapply plain_sane; eauto; lia|]. split; [apply PO|eapply plain_width; eauto].
  - destruct (builtBucket_spec _ _ _ _ _ WP WR B) as [es BO]. split; [eapply bucket_sane; eauto|]. split; [apply BO|eapply bucket_width; eauto].
Qed.
Lemma user_std ranks L cf it spec : userInput ranks L cf it spec -> stdInput ranks L cf it.
Proof.
  intros UI. constructor; [apply UI|apply UI|apply UI|apply UI|]. intros p Hp. apply In_zget in Hp. destruct Hp as [i Ei]. eapply builtFrom_facts; eauto.
Qed.
Lemma plain_input ranks L cf it rowsOf : plainUser ranks L cf it rowsOf -> plainInput L cf it rowsOf.
Proof.
  intros [UI PS]. constructor; [apply UI|exact PS|pose proof (ui_unit _ _ _ _ _ UI); lia|]. intros i p Ep. exact (ui_procs _ _ _ _ _ UI i p Ep).
Qed.

(** ** C16 *)
(** An event of process i listed at site x: every entry of the process acts at a site of its own, which (wildcards apart) lies at the
    position of the entry relative to x and holds what the entry asks for.  The occupation and the names at a site differ
    afterwards only if the site belongs to an entry with a non-zero update, and the list of affected sites, from which the
    matching continues, consists of exactly the sites of these entries. *)
Theorem C16_changed_sites ranks hash L cf it spec md i p p' x cf' p1 :
  userInput ranks L cf it spec -> reachable ranks hash L cf it md ->
  zget (in_procs it) i = Some p -> zget (in_procs (md_in md)) i = Some p' -> listed md i x ->
  performBucketProcess (md_cf md) p' x = Some (cf', p1) ->
  exists ys, zlen ys = zlen (pr_ml p) /\ NoDup ys /\
    (forall j e y, zget (pr_ml p) j = Some e -> zget ys j = Some y -> wildEntry e \/ suits L (md_cf md) x e y) /\
    (forall y, zget (cf_types cf') y <> zget (cf_types (md_cf md)) y \/ zget (cf_elements cf') y <> zget (cf_elements (md_cf md)) y ->
       exists j e, zget (pr_ml p) j = Some e /\ zget ys j = Some y /\ changes e) /\
    (forall y, In y (pr_aff p1) <-> exists j e, zget (pr_ml p) j = Some e /\ zget ys j = Some y /\ changes e).
Proof.
  intros UI HR Ep Ep' HL HP. destruct (builtFrom_facts _ _ _ _ _ _ _ UI Ep) as (SN & SL & _). pose proof (user_std _ _ _ _ _ UI) as ST.
  destruct (perform_event ranks hash L cf it md i p p' p' x cf' p1 (ui_wf _ _ _ _ _ UI) (fun t Ht => std_nonempty _ _ _ _ ST t Ht) (ui_fits _ _ _ _ _ UI) HR Ep SN Ep' eq_refl eq_refl eq_refl HL HP) as (ys & EF & HA).
  exists ys. split; [apply EF|]. split; [apply EF|]. split; [apply EF|]. split; [|exact (HA SL)].
  intros y Hy. destruct (in_dec Z.eq_dec y ys) as [Hi|Hi].
  - apply In_zget in Hi. destruct Hi as [j Ej]. destruct (zget_lt (pr_ml p) j) as [e Ee]; [rewrite <- (ef_len _ _ _ _ _ _ EF); eapply zget_range; eauto|].
    exists j, e. split; [exact Ee|]. split; [exact Ej|]. destruct (changes_dec e) as [C|C]; [exact C|exfalso]. destruct Hy as [Hy|Hy].
    + destruct (ef_types _ _ _ _ _ _ EF j e y Ee Ej) as (t & t' & T1 & T2 & _ & T3). rewrite T1, T2, (T3 C) in Hy. congruence.
    + apply Hy. apply (ef_elements_other _ _ _ _ _ _ EF). intros j' e' E1 E2. assert (j' = j) by (eapply NoDup_zget_inj; [apply EF|exact E2|exact Ej]). subst j'. congruence.
  - exfalso. destruct Hy as [Hy|Hy]; apply Hy; [apply EF; exact Hi|]. apply (ef_elements_other _ _ _ _ _ _ EF). intros j e _ E. exfalso. apply Hi. eapply zget_In; eauto.
Qed.
Example C16_example : exists ranks hash L cf it spec md i p p' x cf' p1,
  userInput ranks L cf it spec /\ reachable ranks hash L cf it md /\ zget (in_procs it) i = Some p /\ zget (in_procs (md_in md)) i = Some p' /\ listed md i x /\
  performBucketProcess (md_cf md) p' x = Some (cf', p1) /\ zlen (pr_aff p1) = 2 /\ zlen (pr_ml p) = 3.
Proof.
  assert (E : xcCheck (fun cf it md md' => somewhere (zget (in_procs it) 1) (fun p => somewhere (zget (in_procs (md_in md)) 1) (fun p' => match events p' with [] => false | (x, r) :: _ =>
    somewhere (performBucketProcess (md_cf md) p' x) (fun cp => (zlen (pr_aff (snd cp)) =? 2) && (zlen (pr_ml p) =? 3)) end))) = true) by (vm_compute; reflexivity).
  unfold xcCheck in E. apply userCheck_sound in E. destruct E as (cf & it & md & md' & US & E). apply somewhere_Some in E. destruct E as (p & Ep & E). apply somewhere_Some in E. destruct E as (p' & Ep' & E).
  destruct (events p') as [|[x r] l] eqn:Ev; [discriminate|]. apply somewhere_Some in E. destruct E as ([cf' p1] & EP & E). cbn [snd] in E. apply andb_true_iff in E. destruct E as [E1 E2].
  exists 3, xhash, x2L, cf, it, (specOf xcSpecs), md, 1, p, p', x, cf', p1. split; [inputOf US|]. split; [reached US|]. split; [exact Ep|]. split; [exact Ep'|].
  split; [exists r; exists p'; split; [exact Ep'|]; rewrite Ev; left; reflexivity|]. split; [exact EP|]. split; apply Z.eqb_eq; assumption.
Qed.

(** ** C17 *)
(** Plain processes, one particle per site: a step performs the event of some process (rows [rowsOf i]) at some site x; row j acts at the
    site ys[j]: that site lies at the position of the row and holds the type before the event; after the event it holds exactly one
    particle, of the type after.  Under a wildcard nothing changes, and nothing changes at the other sites. *)
Theorem C17_after_configuration ranks hash L cf it rowsOf md u1 u2 md' :
  plainUser ranks L cf it rowsOf -> reachable ranks hash L cf it md -> singleStep md u1 u2 = Some md' ->
  exists i p x ys, zget (in_procs it) i = Some p /\ listed md i x /\ cf_lastproc (md_cf md') = pr_number p /\ cf_lastsite (md_cf md') = x /\
    zlen ys = zlen (rowsOf i) /\ NoDup ys /\
    (forall j r y, zget (rowsOf i) j = Some r -> zget ys j = Some y ->
       (rw_before r <> "*" -> liesAt L (cf_coords (md_cf md)) x (rw_c r) y /\ holds (md_cf md) y (rw_before r) /\ holds (md_cf md') y (rw_after r)) /\
       (rw_before r = "*" -> forall s, holds (md_cf md) y s -> holds (md_cf md') y s)) /\
    (forall y s, ~ In y ys -> holds (md_cf md) y s -> holds (md_cf md') y s).
Proof.
  intros PU HR H. pose proof (plain_input _ _ _ _ _ PU) as PI. pose proof (pu_user _ _ _ _ _ PU) as UI. pose proof (reach_step _ _ _ _ _ _ _ _ _ HR H) as HR'.
  destruct (reach_static _ _ _ _ _ _ HR) as (_ & _ & EP). destruct (reach_static _ _ _ _ _ _ HR') as (_ & _ & EP').
  destruct (plain_step _ _ _ _ _ _ (ui_wf _ _ _ _ _ UI) PI (ui_fits _ _ _ _ _ UI) _ _ _ _ HR H) as (i & p & x & ys & Ep & _ & HL & _ & A1 & A2 & RE).
  assert (KEEP : forall y s, zget (cf_types (md_cf md')) y = zget (cf_types (md_cf md)) y /\ zget (cf_elements (md_cf md')) y = zget (cf_elements (md_cf md)) y -> holds (md_cf md) y s -> holds (md_cf md') y s).
  { intros y s [E1 E2] (S1 & k & t & S2 & S3 & S4). split; [congruence|]. exists k, t. rewrite EP'. rewrite EP in S2, S4. split; [exact S2|]. split; [congruence|exact S4]. }
  exists i, p, x, ys. split; [exact Ep|]. split; [exact HL|]. split; [exact A1|]. split; [exact A2|]. split; [apply RE|]. split; [apply RE|]. split.
  - intros j r y Er Ey. pose proof (pn_procs _ _ _ _ PI i p Ep) as [WR _]. destruct WR as [_ HW]. specialize (HW r (zget_In _ _ _ Er)). split.
    + intros Hb. split; [eapply (re_site _ _ _ _ _ _ RE); eauto|]. split; [eapply (re_before _ _ _ _ _ _ RE); eauto|]. eapply (re_after _ _ _ _ _ _ RE); eauto. tauto.
    + intros Hb s Hs. apply KEEP; [|exact Hs]. eapply (re_same _ _ _ _ _ _ RE); eauto. rewrite Hb. apply HW. exact Hb.
  - intros y s Hy Hs. apply KEEP; [|exact Hs]. apply (re_other _ _ _ _ _ _ RE). exact Hy.
Qed.
Example C17_example : exists ranks hash L cf it rowsOf md u1 u2 md',
  plainUser ranks L cf it rowsOf /\ reachable ranks hash L cf it md /\ singleStep md u1 u2 = Some md' /\ cf_types (md_cf md') <> cf_types (md_cf md) /\ cf_types (md_cf md) <> cf_types cf.
Proof.
  assert (E : xaCheck (fun cf it md md' => match list_eq_dec (list_eq_dec Z.eq_dec) (cf_types (md_cf md')) (cf_types (md_cf md)), list_eq_dec (list_eq_dec Z.eq_dec) (cf_types (md_cf md)) (cf_types cf) with
    | right _, right _ => true | _, _ => false end) = true) by (vm_compute; reflexivity).
  unfold xaCheck in E. apply userCheck_sound in E. destruct E as (cf & it & md & md' & US & E).
  exists 2, xhash, x1L, cf, it, (rowsIn xaSpecs), md, (dev 1 100), (dev 1 2), md'. split; [eapply userSystem_plain; [reflexivity|exact US]|]. split; [reached US|]. split; [apply US|].
  destruct (list_eq_dec _ _ _) as [|N1] in E; [discriminate|]. destruct (list_eq_dec _ _ _) as [|N2] in E; [discriminate|]. split; assumption.
Qed.

(** ** C18 *)
(** The reported particle numbers exist in every reachable state and are the column sums of the occupations; as long as no occupation
    is negative they are also the numbers of occurrences of the names at the sites. *)
Theorem C18_counts ranks hash L cf it spec md :
  userInput ranks L cf it spec -> reachable ranks hash L cf it md ->
  exists ns, particlesPerType (md_cf md) = Some ns /\ zlen ns = zlen (cf_ptypes cf) /\
    (forall k, 0 <= k < zlen (cf_ptypes cf) -> zget ns k = Some (countOf (cf_types (md_cf md)) k)) /\
    (nonNegative (md_cf md) -> forall s k, tfind (cf_ptypes cf) s = Some k -> zget ns k = Some (nameCount s (cf_elements (md_cf md)))).
Proof.
  intros UI HR. pose proof (user_std _ _ _ _ _ UI) as ST. destruct (reach_static _ _ _ _ _ _ HR) as (_ & EN & EP).
  pose proof (reach_width _ _ _ _ _ ST md HR) as HW. destruct (perType_spec (md_cf md)) as (ns & N1 & N2 & N3); [intros t Ht; rewrite EP; apply HW; exact Ht|]. rewrite EP in N2, N3.
  exists ns. split; [exact N1|]. split; [exact N2|]. split; [exact N3|]. intros HN s k Hs. pose proof (tfind_range _ _ _ (ui_pt _ _ _ _ _ UI) Hs) as Hk. rewrite (N3 k Hk). f_equal. symmetry.
  destruct (reach_lens _ _ _ _ _ _ (ui_wf _ _ _ _ _ UI) HR) as (L1 & L2 & _). apply nameCount_eq; [|exact HN|congruence|rewrite EP; exact Hs|intros t Ht; rewrite (HW t Ht); exact Hk].
  revert md HR HW ns N1 N2 N3 HN L1 L2 EN EP. clear Hk Hs s k. intros md HR _ _ _ _ _ _ _ _ _ _. revert md HR. apply (std_ind _ hash _ _ _ ST agrees).
  - destruct (ui_cf _ _ _ _ _ UI) as (coords & els & E). eapply agrees_start; eauto. apply UI.
  - apply agrees_same.
  - intros md md' i p x ys HR HR' _ EF HA. destruct (reach_static _ _ _ _ _ _ HR) as (_ & EN & EP). destruct (reach_static _ _ _ _ _ _ HR') as (_ & _ & EP').
    eapply agrees_event; [rewrite EP; apply UI|rewrite EP, EN; eapply std_names; eauto|congruence|exact EF|exact HA].
Qed.
Example C18_example : exists ranks hash L cf it spec md ns,
  userInput ranks L cf it spec /\ reachable ranks hash L cf it md /\ nonNegative (md_cf md) /\ particlesPerType (md_cf md) = Some ns /\ exists n, zget ns 1 = Some n /\ 3 <= n.
Proof.
  assert (E : xcCheck (fun cf it md md' => forallb (fun t => forallb (fun n => 0 <=? n) t) (cf_types (md_cf md)) && somewhere (particlesPerType (md_cf md)) (fun ns => somewhere (zget ns 1) (fun n => 3 <=? n))) = true) by (vm_compute; reflexivity).
  unfold xcCheck in E. apply userCheck_sound in E. destruct E as (cf & it & md & md' & US & E). apply andb_true_iff in E. destruct E as [E1 E]. apply somewhere_Some in E. destruct E as (ns & En & E). apply somewhere_Some in E. destruct E as (n & Ek & E).
  exists 3, xhash, x2L, cf, it, (specOf xcSpecs), md, ns. split; [inputOf US|]. split; [reached US|].
  split; [intros y t k m Et Em; rewrite forallb_forall in E1; specialize (E1 t (zget_In _ _ _ Et)); rewrite forallb_forall in E1; apply Z.leb_le, E1; eapply zget_In; eauto|].
  split; [exact En|]. exists n. split; [exact Ek|apply Z.leb_le; exact E].
Qed.
(** A step changes the number of particles of each type by the sum of the updates of the process performed. *)
Theorem C18_change ranks hash L cf it spec md u1 u2 md' :
  userInput ranks L cf it spec -> reachable ranks hash L cf it md -> singleStep md u1 u2 = Some md' ->
  exists i p, zget (in_procs it) i = Some p /\ cf_lastproc (md_cf md') = pr_number p /\
    forall k, 0 <= k < zlen (cf_ptypes cf) -> countOf (cf_types (md_cf md')) k = countOf (cf_types (md_cf md)) k + netChange p k.
Proof.
  intros UI HR H. pose proof (user_std _ _ _ _ _ UI) as ST. destruct (std_step _ _ _ _ _ ST _ _ _ _ HR H) as (i & p & x & ys & Ep & _ & _ & _ & A & _ & EF).
  exists i, p. split; [exact Ep|]. split; [exact A|]. intros k Hk. eapply countOf_change; [exact EF| | |].
  - apply (reach_lens _ _ _ _ _ _ (ui_wf _ _ _ _ _ UI) HR).
  - intros t Ht. rewrite (reach_width _ _ _ _ _ ST md HR t Ht). exact Hk.
  - intros e He. destruct (builtFrom_facts _ _ _ _ _ _ _ UI Ep) as (_ & _ & HW). destruct (HW e He) as [_ ->]. exact Hk.
Qed.
(** the net change of a process, from its rows *)
Definition rowsNet (sp : pspec) (s : string) : Z :=
  match sp with
  | Plain rows => zsum (map (fun r => (if String.eqb (rw_after r) s then 1 else 0) - (if String.eqb (rw_before r) s then 1 else 0)) rows)
  | Bucket rows => zsum (map (fun r => change (br_upd r) s) rows)
  end.
Lemma netChange_rows ranks L cf it spec i p s k : userInput ranks L cf it spec -> zget (in_procs it) i = Some p -> tfind (cf_ptypes cf) s = Some k -> netChange p k = rowsNet (spec i) s.
Proof.
  intros UI Ep Hs. pose proof (ui_procs _ _ _ _ _ UI i p Ep) as B. pose proof (ui_pt _ _ _ _ _ UI) as WP. pose proof (tfind_range _ _ _ WP Hs) as Hk. unfold builtFrom, netChange, rowsNet in *. destruct (spec i) as [rows|rows]; destruct B as (WR & basis & B).
  - destruct (builtPlain_spec _ _ _ _ _ WP B) as [es PO]. rewrite (zsum_perm _ _ (Permutation_map _ (ml_perm _ _ _ _ _ _ PO))). f_equal. apply zget_ext. intros j. rewrite !zget_map.
    destruct (zget rows j) as [r|] eqn:Er.
    + destruct (row_entry _ _ _ _ _ _ PO j r Er) as (e & Ee & F). rewrite Ee. cbn [option_map]. f_equal. destruct (en_kinds _ _ _ F) as (kb & ka & K1 & K2 & _ & LU & UU).
      destruct (zget_lt (pe_upd e) k) as [u Eu]; [unfold bucket in *; lia|]. rewrite (amount_get _ _ _ Eu), (UU _ _ Eu). f_equal.
      * destruct (Z.eqb_spec k ka) as [->|], (String.eqb_spec (rw_after r) s) as [E|E]; try reflexivity; exfalso; [apply E; eapply tfind_inj; eauto|subst s; congruence].
      * destruct (Z.eqb_spec k kb) as [->|], (String.eqb_spec (rw_before r) s) as [E|E]; try reflexivity; exfalso; [apply E; eapply tfind_inj; eauto|subst s; congruence].
    + apply zget_None in Er. rewrite (proj2 (zget_None es j)); [reflexivity|]. rewrite (po_len _ _ _ _ _ _ PO). exact Er.
  - destruct (builtBucket_spec _ _ _ _ _ WP WR B) as [es BO]. rewrite (bo_ml _ _ _ _ _ _ BO), (zsum_perm _ _ (Permutation_map _ (isort_perm (peLt (lt_unit L)) es))). f_equal. apply zget_ext. intros j. rewrite !zget_map.
    destruct (zget rows j) as [r|] eqn:Er.
    + destruct (bo_rows _ _ _ _ _ _ BO j r Er) as (e & Ee & F). rewrite Ee. cbn [option_map]. f_equal. apply amount_get. apply (eb_upd _ _ _ F). exact Hs.
    + apply zget_None in Er. rewrite (proj2 (zget_None es j)); [reflexivity|]. rewrite (bo_len _ _ _ _ _ _ BO). exact Er.
Qed.
(** If no process adds or removes particles of type s, their number is the same after any number of steps. *)
Theorem C18_conserved ranks hash L cf it spec md s k ns ns' :
  userInput ranks L cf it spec -> (forall i p, zget (in_procs it) i = Some p -> rowsNet (spec i) s = 0) -> tfind (cf_ptypes cf) s = Some k ->
  reachable ranks hash L cf it md -> particlesPerType cf = Some ns -> particlesPerType (md_cf md) = Some ns' -> zget ns' k = zget ns k.
Proof.
  intros UI HZ Hs HR E1 E2. pose proof (user_std _ _ _ _ _ UI) as ST. pose proof (tfind_range _ _ _ (ui_pt _ _ _ _ _ UI) Hs) as Hk.
  assert (HC : countOf (cf_types (md_cf md)) k = countOf (cf_types cf) k).
  { clear ns' E2. revert md HR. apply (std_ind _ hash _ _ _ ST (fun c => countOf (cf_types c) k = countOf (cf_types cf) k)).
    - reflexivity.
    - intros a b SC <-. rewrite (sc_types _ _ SC). reflexivity.
    - intros md md' i p x ys HR _ Ep EF IH. rewrite <- IH. rewrite (countOf_change _ _ _ _ _ _ k EF).
      + rewrite (netChange_rows _ _ _ _ _ _ _ _ _ UI Ep Hs), (HZ i p Ep). lia.
      + apply (reach_lens _ _ _ _ _ _ (ui_wf _ _ _ _ _ UI) HR).
      + intros t Ht. rewrite (reach_width _ _ _ _ _ ST md HR t Ht). exact Hk.
      + intros e He. destruct (builtFrom_facts _ _ _ _ _ _ _ UI Ep) as (_ & _ & HW). destruct (HW e He) as [_ ->]. exact Hk. }
  destruct (perType_spec cf) as (n1 & X1 & X2 & X3); [intros t Ht; eapply std_width; eauto|]. destruct (reach_static _ _ _ _ _ _ HR) as (_ & _ & EP).
  destruct (perType_spec (md_cf md)) as (n2 & Y1 & Y2 & Y3); [intros t Ht; rewrite EP; eapply reach_width; eauto|]. rewrite EP in Y3.
  assert (n1 = ns) by congruence. assert (n2 = ns') by congruence. subst n1 n2. rewrite (X3 k Hk), (Y3 k Hk). congruence.
Qed.
(** hops conserve both types, and the state has changed *)
Example C18_conserved_example : exists ranks hash L cf it spec md,
  userInput ranks L cf it spec /\ (forall s i p, zget (in_procs it) i = Some p -> rowsNet (spec i) s = 0) /\ reachable ranks hash L cf it md /\ cf_types (md_cf md) <> cf_types cf.
Proof.
  assert (E : xbCheck (fun cf it md md' => (zlen (in_procs it) =? 2) && if list_eq_dec (list_eq_dec Z.eq_dec) (cf_types (md_cf md)) (cf_types cf) then false else true) = true) by (vm_compute; reflexivity).
  unfold xbCheck in E. apply userCheck_sound in E. destruct E as (cf & it & md & md' & US & E). apply andb_true_iff in E. destruct E as [E1 E]. apply Z.eqb_eq in E1.
  exists 2, xhash, x1L, cf, it, (specOf xbSpecs), md. split; [inputOf US|]. split.
  - intros s i p Ep. apply zget_range in Ep. rewrite E1 in Ep. assert (Hi : i = 0 \/ i = 1) by lia. destruct Hi as [-> | ->].
    + change (specOf xbSpecs 0) with (Plain hopRows). unfold rowsNet, hopRows. cbn [map rw_before rw_after]. destruct (String.eqb "A" s), (String.eqb "B" s); reflexivity.
    + change (specOf xbSpecs 1) with (Plain upRows). unfold rowsNet, upRows. cbn [map rw_before rw_after]. destruct (String.eqb "A" s), (String.eqb "B" s), (String.eqb "*" s); reflexivity.
  - split; [reached US|]. destruct (list_eq_dec _ _ _) as [|N] in E; [discriminate|exact N].
Qed.

(** ** C19 *)
Definition thriftySpec (sp : pspec) : Prop := match sp with Plain _ => True | Bucket rows => thrifty rows end.
(** Occupations are never negative, provided the bucket processes do not take more than they ask for. *)
Theorem C19_nonnegative_partial ranks hash L cf it spec md :
  userInput ranks L cf it spec -> (forall i p, zget (in_procs it) i = Some p -> thriftySpec (spec i)) -> reachable ranks hash L cf it md -> nonNegative (md_cf md).
Proof.
  intros UI HT HR. pose proof (user_std _ _ _ _ _ UI) as ST. pose proof (ui_pt _ _ _ _ _ UI) as WP. revert md HR. apply (std_ind _ hash _ _ _ ST nonNegative).
  - destruct (ui_cf _ _ _ _ _ UI) as (coords & els & E). eapply nonneg_start; eauto.
  - intros a b SC HN y t k n. rewrite (sc_types _ _ SC). apply HN.
  - intros md md' i p x ys HR _ Ep EF HN. destruct (builtFrom_facts _ _ _ _ _ _ _ UI Ep) as (_ & _ & HW). eapply nonneg_event; [exact EF| | |exact HN].
    + pose proof (ui_procs _ _ _ _ _ UI i p Ep) as B. pose proof (HT i p Ep) as T. unfold builtFrom, thriftySpec in *. destruct (spec i) as [rows|rows]; destruct B as (WR & basis & B).
      * destruct (builtPlain_spec _ _ _ _ _ WP B) as [es PO]. eapply plain_thrifty; eauto.
      * destruct (builtBucket_spec _ _ _ _ _ WP WR B) as [es BO]. eapply bucket_thrifty; eauto.
    + intros t Ht e He. rewrite (reach_width _ _ _ _ _ ST md HR t Ht). destruct (HW e He). auto.
Qed.
Example C19_example : exists ranks hash L cf it spec md,
  userInput ranks L cf it spec /\ (forall i p, zget (in_procs it) i = Some p -> thriftySpec (spec i)) /\ (exists i rows, spec i = Bucket rows /\ exists r, In r rows /\ change (br_upd r) "A" = -1) /\
  reachable ranks hash L cf it md /\ cf_types (md_cf md) <> cf_types cf.
Proof.
  set (rows := [mkBRow czero ["A"; "A"] [("A", -1)]]).
  assert (E : userCheck 3 xhash x2L x2sites x2elements x2pt [bucket1 rows 1 2] true false norc [(dev 1 2, dev 1 2)] (dev 1 3) (dev 1 3)
     (fun cf it md md' => (zlen (in_procs it) =? 1) && if list_eq_dec (list_eq_dec Z.eq_dec) (cf_types (md_cf md)) (cf_types cf) then false else true) = true) by (vm_compute; reflexivity).
  apply userCheck_sound in E. destruct E as (cf & it & md & md' & US & E). apply andb_true_iff in E. destruct E as [E1 E]. apply Z.eqb_eq in E1.
  exists 3, xhash, x2L, cf, it, (specOf [bucket1 rows 1 2]), md. split; [inputOf US|]. split.
  - intros i p Ep. apply zget_range in Ep. rewrite E1 in Ep. assert (i = 0) by lia. subst i. change (specOf [bucket1 rows 1 2] 0) with (Bucket rows). cbn [thriftySpec]. intros r [<-|[]]. unfold howMany, change. cbn [br_before br_upd tfind].
    split; [intros s; cbn [filter]; rewrite (String.eqb_sym "A" s); destruct (String.eqb s "A"); cbn; lia|intros [H|[H|[]]]; discriminate].
  - split; [exists 0, rows; split; [reflexivity|]; eexists; split; [left; reflexivity|reflexivity]|]. split; [reached US|]. destruct (list_eq_dec _ _ _) as [|N] in E; [discriminate|exact N].
Qed.
(** In general they do become negative: nothing stops a bucket process from taking more particles than it asks for. *)
Theorem C19_negative_refuted : exists ranks hash L cf it spec md y t k n,
  userInput ranks L cf it spec /\ reachable ranks hash L cf it md /\ zget (cf_types (md_cf md)) y = Some t /\ zget t k = Some n /\ n < 0.
Proof.
  assert (E : userCheck 1 xhash x1L x1sites (map (fun _ => ["A"; "B"]) x1sites) x1pt [bucket1 [mkBRow czero ["A"] [("A", -2)]] 0 4] true false norc [] (dev 1 3) (dev 1 24)
    (fun cf it md md' => somewhere (zget (cf_types (md_cf md')) 0) (fun t => somewhere (zget t 1) (fun n => n <? 0))) = true) by (vm_compute; reflexivity).
  apply userCheck_sound in E. destruct E as (cf & it & md & md' & US & E). apply somewhere_Some in E. destruct E as (t & Et & E). apply somewhere_Some in E. destruct E as (n & En & E).
  exists 1, xhash, x1L, cf, it, (specOf [bucket1 [mkBRow czero ["A"] [("A", -2)]] 0 4]), md', 0, t, 1, n. split; [inputOf US|]. split; [reached US|]. split; [exact Et|]. split; [exact En|]. apply Z.ltb_lt. exact E.
Qed.

(** ** C20 *)
Theorem C20_single_occupancy ranks hash L cf it rowsOf md :
  plainUser ranks L cf it rowsOf -> reachable ranks hash L cf it md -> forall y, 0 <= y < nsites L -> exists s, holds (md_cf md) y s.
Proof.
  intros PU HR y Hy. pose proof (plain_input _ _ _ _ _ PU) as PI. pose proof (pu_user _ _ _ _ _ PU) as UI.
  pose proof (plain_reach _ hash _ _ _ _ (ui_wf _ _ _ _ _ UI) PI (ui_fits _ _ _ _ _ UI) md HR) as PC. apply (pc_singly _ _ PC).
  destruct (reach_lens _ _ _ _ _ _ (ui_wf _ _ _ _ _ UI) HR) as (-> & _). exact Hy.
Qed.
(** C17_example meets the hypotheses *)
Example C20_example : exists ranks hash L cf it rowsOf md, plainUser ranks L cf it rowsOf /\ reachable ranks hash L cf it md /\ cf_types (md_cf md) <> cf_types cf.
Proof. destruct C17_example as (ranks & hash & L & cf & it & rowsOf & md & u1 & u2 & md' & H1 & H2 & H3 & H4 & H5). exists ranks, hash, L, cf, it, rowsOf, md. auto. Qed.

Print Assumptions C16_changed_sites.
Print Assumptions C17_after_configuration.
Print Assumptions C18_counts.
Print Assumptions C18_change.
Print Assumptions C18_conserved.
Print Assumptions C19_nonnegative_partial.
Print Assumptions C19_negative_refuted.
Print Assumptions C20_single_occupancy.
