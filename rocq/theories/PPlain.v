(** Plain processes: from stored entries back to the rows of the user. *)
From Verif Require Import PBase SModel SGeo SEvent SBuild SPlain PLattice PProcess PMpi PRateTable PMatcher PPerform PStep PGeo PPossible PRun PEffect PRematch PEvent PBuild.
Open Scope string_scope.
Open Scope list_scope.
Open Scope Z_scope.

(** ** induction over reachable states *)
Lemma reach_step ranks hash L cf it md u1 u2 md' : reachable ranks hash L cf it md -> singleStep md u1 u2 = Some md' -> reachable ranks hash L cf it md'.
Proof.
  intros (md0 & us & E0 & E1) H. exists md0, (us ++ [(u1, u2)]). split; [exact E0|]. unfold runSteps in *. rewrite ofold_app, E1. cbn. rewrite H. reflexivity.
Qed.
Lemma reach_ind ranks hash L cf it (P : model -> Prop) :
  (forall md0, mkLatticeModel ranks hash L cf it = Some md0 -> P md0) ->
  (forall md u1 u2 md', reachable ranks hash L cf it md -> P md -> singleStep md u1 u2 = Some md' -> P md') ->
  forall md, reachable ranks hash L cf it md -> P md.
Proof.
  intros H0 HS md (md0 & us & E0 & E1). revert md E1. induction us as [|[u1 u2] us IH] using rev_ind; intros md E1.
  - inversion E1; subst. apply H0. exact E0.
  - unfold runSteps in E1. rewrite ofold_app in E1. ob E1 as md1 E2. cbn in E1. ob E1 as md2 E3. inversion E1; subst. eapply HS; [|apply IH; exact E2|exact E3].
    exists md0, us. auto.
Qed.
(** the model starts with the given configuration *)
Record sameCfg (a b : config) : Prop := {
  sc_coords : cf_coords b = cf_coords a; sc_aidcoords : cf_aidcoords b = cf_aidcoords a; sc_elements : cf_elements b = cf_elements a;
  sc_aidel : cf_aidelements b = cf_aidelements a; sc_types : cf_types b = cf_types a; sc_aid : cf_aid b = cf_aid a;
  sc_names : cf_names b = cf_names a; sc_ptypes : cf_ptypes b = cf_ptypes a }.
Lemma mkLatticeModel_cfg ranks hash L cf it md : mkLatticeModel ranks hash L cf it = Some md -> sameCfg cf (md_cf md).
Proof.
  unfold mkLatticeModel, calculateInitialMatching. cbn [md_lat md_cf md_in md_mt]. intros H. ob H as md1 E1. inversion H; subst; clear H. cbn [md_cf].
  ob E1 as cf1 X1. ob E1 as it1 X2. ob E1 as r X3. destruct r as [[mt it'] cf']. inversion E1; subst; clear E1. cbn [md_cf].
  destruct (calculateMatching_cf _ _ _ _ _ _ _ _ X3) as [mls ->].
  destruct (initMatchLists_fields _ _ _ _ X1) as (mls1 & n & _ & _ & ->). constructor; reflexivity.
Qed.
Lemma reach_frame ranks hash L cf it md : reachable ranks hash L cf it md -> cframe cf (md_cf md) \/ True.
Proof. auto. Qed.
Lemma reach_static ranks hash L cf it md : reachable ranks hash L cf it md -> cf_coords (md_cf md) = cf_coords cf /\ cf_names (md_cf md) = cf_names cf /\ cf_ptypes (md_cf md) = cf_ptypes cf.
Proof.
  intros (md0 & us & E0 & E1). apply mkLatticeModel_cfg in E0. apply run_cframe in E1. destruct E0, E1. repeat split; congruence.
Qed.

(** ** unit occupations *)
Lemma unitAt_eq W k t t' : unitAt W k t -> unitAt W k t' -> t = t'.
Proof.
  intros [L1 U1] [L2 U2]. apply zget_ext. intros j. destruct (zget t j) as [a|] eqn:E1, (zget t' j) as [b|] eqn:E2; try reflexivity.
  - apply U1 in E1. apply U2 in E2. congruence.
  - apply zget_range in E1. apply zget_None in E2. unfold bucket in *. lia.
  - apply zget_range in E2. apply zget_None in E1. unfold bucket in *. lia.
Qed.
Lemma unitAt_inj W k k' t : unitAt W k t -> unitAt W k' t -> 0 <= k < W -> k = k'.
Proof.
  intros [L1 U1] [_ U2] Hk. destruct (zget_lt t k) as [a Ea]; [unfold bucket in *; lia|]. pose proof (U1 _ _ Ea) as H1. pose proof (U2 _ _ Ea) as H2.
  rewrite Z.eqb_refl in H1. destruct (Z.eqb_spec k k'); [assumption|congruence].
Qed.
Lemma contains_unit W k k' t t' : unitAt W k t -> unitAt W k' t' -> 0 <= k < W -> contains t' t -> k = k'.
Proof.
  intros [L1 U1] [L2 U2] Hk [_ HC]. destruct (zget_lt t k) as [a Ea]; [unfold bucket in *; lia|]. destruct (zget_lt t' k) as [b Eb]; [unfold bucket in *; lia|].
  specialize (HC k a b Ea Eb). apply U1 in Ea. apply U2 in Eb. rewrite Z.eqb_refl in Ea. destruct (Z.eqb_spec k k'); [assumption|lia].
Qed.
Lemma elementsOf_unit names W k t s : unitAt W k t -> zlen names = W -> zget names k = Some s -> elementsOf names t = Some [s].
Proof.
  intros [L1 U1] Hn Hs. unfold elementsOf, bget.
  set (f := fun i => n <- zget t i ;; if 0 <? n then (s <- zget names i ;; Some (repeat s (Z.to_nat n))) else Some []).
  apply zget_range in Hs as Hk. rewrite Hn in Hk.
  assert (Hf : forall i, 0 <= i < W -> f i = Some (if i =? k then [s] else [])).
  { intros i Hi. unfold f. destruct (zget_lt t i) as [a Ea]; [unfold bucket in *; lia|]. rewrite Ea. cbn [obind]. rewrite (U1 _ _ Ea).
    destruct (Z.eqb_spec i k) as [->|]; [rewrite Hs; reflexivity|reflexivity]. }
  assert (HO : omap f (zrange 0 (zlen t - 1)) = Some (map (fun i => if i =? k then [s] else []) (zrange 0 (W - 1)))).
  { replace (zlen t) with W. revert Hf. clear. intros Hf.
    assert (H : forall l, (forall i, In i l -> 0 <= i < W) -> omap f l = Some (map (fun i => if i =? k then [s] else []) l)).
    { induction l as [|i l IH]; intros H; [reflexivity|]. cbn [omap map]. rewrite Hf by (apply H; left; reflexivity). cbn [obind]. rewrite IH by (intros; apply H; right; assumption). reflexivity. }
    apply H. intros i Hi. apply In_zrange in Hi. lia. }
  rewrite HO. cbn [obind]. f_equal.
  assert (HC : forall l, NoDup l -> concat (map (fun i => if i =? k then [s] else []) l) = if in_dec Z.eq_dec k l then [s] else []).
  { induction l as [|i l IH]; intros ND; [reflexivity|]. inversion ND as [|? ? Hni ND']; subst. cbn [map concat]. rewrite (IH ND').
    destruct (Z.eqb_spec i k) as [->|Hne].
    - destruct (in_dec Z.eq_dec k l) as [|]; [contradiction|]. destruct (in_dec Z.eq_dec k (k :: l)) as [|Hx]; [reflexivity|exfalso; apply Hx; left; reflexivity].
    - destruct (in_dec Z.eq_dec k l) as [Hi|Hi], (in_dec Z.eq_dec k (i :: l)) as [Hj|Hj]; try reflexivity.
      + exfalso. apply Hj. right; exact Hi.
      + destruct Hj as [Hj|Hj]; congruence. }
  rewrite HC by apply NoDup_zrange. destruct (in_dec Z.eq_dec k (zrange 0 (W - 1))) as [|Hx]; [reflexivity|]. exfalso. apply Hx. apply In_zrange. lia.
Qed.

(** ** entries and rows *)
Section Rows.
Context (S : Z) (pt : tmap) (rows : list row) (basis : list Z) (p : process) (es : list pentry).
Context (WP : wfPT pt) (PO : plainOf S pt rows basis p es) (WR : wfRows rows) (HS : 0 < S < 1000000).

Lemma row_entry i r : zget rows i = Some r -> exists e, zget es i = Some e /\ entryFor pt r e.
Proof using PO. apply PO. Qed.
Lemma entry_row i e : zget es i = Some e -> exists r, zget rows i = Some r /\ entryFor pt r e.
Proof using PO.
  intros E. apply zget_range in E as Hr. rewrite (po_len _ _ _ _ _ _ PO) in Hr. destruct (zget_lt _ _ Hr) as [r Er].
  destruct (row_entry i r Er) as (e' & E' & EF). exists r. split; [exact Er|]. congruence.
Qed.
Lemma row_inj i j r r' : zget rows i = Some r -> zget rows j = Some r' -> rw_c r = rw_c r' -> i = j.
Proof using WR.
  intros E1 E2 E. destruct WR as [ND _]. eapply (NoDup_zget_inj (map rw_c rows)); [exact ND|rewrite zget_map, E1; reflexivity|rewrite zget_map, E2; simpl; congruence].
Qed.
Lemma es_inj i j e e' : zget es i = Some e -> zget es j = Some e' -> pe_c e = pe_c e' -> i = j.
Proof using PO WR.
  intros E1 E2 E. destruct (entry_row _ _ E1) as (r1 & R1 & F1). destruct (entry_row _ _ E2) as (r2 & R2 & F2).
  eapply row_inj; eauto. rewrite <- (en_c _ _ _ F1), <- (en_c _ _ _ F2). exact E.
Qed.
Lemma ml_perm : Permutation (pr_ml p) es.
Proof using PO. rewrite (po_ml _ _ _ _ _ _ PO). apply isort_perm. Qed.
Lemma es_nodup : NoDup (map pe_c es).
Proof using PO WR.
  apply NoDup_nth_error. intros i j Hi E. rewrite map_length in Hi. rewrite !nth_error_map in E.
  destruct (nth_error es i) as [e|] eqn:Ei; [|apply nth_error_None in Ei; lia]. cbn in E.
  destruct (nth_error es j) as [e'|] eqn:Ej; [|discriminate]. cbn in E. inversion E as [E'].
  rewrite <- zget_of_nat in Ei, Ej. pose proof (es_inj _ _ _ _ Ei Ej E'). lia.
Qed.
Lemma ml_nodup : NoDup (map pe_c (pr_ml p)).
Proof using PO WR. eapply Permutation_NoDup; [apply Permutation_sym; apply Permutation_map; apply ml_perm|apply es_nodup]. Qed.
Lemma ml_inj i j e e' : zget (pr_ml p) i = Some e -> zget (pr_ml p) j = Some e' -> pe_c e = pe_c e' -> i = j.
Proof using PO WR.
  intros E1 E2 E. eapply (NoDup_zget_inj (map pe_c (pr_ml p))); [apply ml_nodup|rewrite zget_map, E1; reflexivity|rewrite zget_map, E2; simpl; congruence].
Qed.
Lemma ml_row j e : zget (pr_ml p) j = Some e -> exists i r, zget rows i = Some r /\ zget es i = Some e /\ entryFor pt r e.
Proof using PO.
  intros E. apply zget_In in E. apply (Permutation_in _ ml_perm) in E. apply In_zget in E. destruct E as [i Ei]. destruct (entry_row _ _ Ei) as (r & Er & F). eauto.
Qed.
Lemma row_ml i r : zget rows i = Some r -> exists j e, zget (pr_ml p) j = Some e /\ zget es i = Some e /\ entryFor pt r e.
Proof using PO.
  intros E. destruct (row_entry i r E) as (e & Ee & F). pose proof (zget_In _ _ _ Ee) as Hin. apply (Permutation_in _ (Permutation_sym ml_perm)) in Hin. apply In_zget in Hin.
  destruct Hin as [j Ej]. eauto.
Qed.

Lemma entry_changes r e : entryFor pt r e -> (changes e <-> rw_before r <> rw_after r).
Proof using WP.
  intros [_ (kb & ka & K1 & K2 & U1 & L1 & H) _]. unfold changes. split.
  - intros (j & n & Ej & Hn) Heq. apply Hn. rewrite (H _ _ Ej). rewrite Heq in K1. assert (ka = kb) by congruence. subst. lia.
  - intros Hne. pose proof (tfind_range _ _ _ WP K1) as R1. destruct (zget_lt (pe_upd e) kb) as [n En]; [unfold bucket in *; lia|]. exists kb, n. split; [exact En|].
    rewrite (H _ _ En). rewrite Z.eqb_refl. destruct (Z.eqb_spec kb ka) as [->|]; [|lia]. exfalso. apply Hne. eapply tfind_inj; eauto.
Qed.
Lemma entry_wild r e : entryFor pt r e -> (wildEntry e <-> rw_before r = "*").
Proof using WP.
  intros [_ (kb & ka & K1 & K2 & [L1 U1] & _) _]. unfold wildEntry. destruct WP as (_ & _ & W0). pose proof (tfind_range _ _ _ WP W0) as R0. split.
  - intros H. apply U1 in H. destruct (Z.eqb_spec 0 kb) as [<-|]; [|discriminate]. eapply tfind_inj; eauto.
  - intros Hb. rewrite Hb in K1. assert (kb = 0) by congruence. subst kb. destruct (zget_lt (pe_match e) 0) as [a Ea]; [unfold bucket in *; lia|]. rewrite Ea. rewrite (U1 _ _ Ea). reflexivity.
Qed.
Lemma entry_upd0 r e : In r rows -> entryFor pt r e -> zget (pe_upd e) 0 = Some 0.
Proof using WP WR.
  intros Hr [_ (kb & ka & K1 & K2 & [L1 U1] & L2 & H) _]. pose proof (tfind_range _ _ _ WP K1) as R1.
  destruct WP as (_ & _ & W0). destruct (zget_lt (pe_upd e) 0) as [a Ea]; [unfold bucket in *; lia|]. rewrite Ea. f_equal. rewrite (H _ _ Ea).
  destruct WR as [_ HW]. specialize (HW r Hr).
  destruct (Z.eqb_spec 0 ka) as [<-|Ha], (Z.eqb_spec 0 kb) as [<-|Hb]; try reflexivity; exfalso.
  - assert (rw_after r = "*") by (eapply tfind_inj; eauto). apply HW in H0. rewrite H0 in K1. congruence.
  - assert (rw_before r = "*") by (eapply tfind_inj; eauto). apply HW in H0. rewrite H0 in K2. congruence.
Qed.

(** ** identity moves *)
Lemma cnorm2_0 a b : cnorm2 (csub a b) = 0 <-> a = b.
Proof.
  unfold cnorm2, csub. destruct a as [a1 a2 a3], b as [b1 b2 b3]. cbn [cx cy cz]. split.
  - intros H. pose proof (Z.square_nonneg (a1 - b1)) as Q1. pose proof (Z.square_nonneg (a2 - b2)) as Q2. pose proof (Z.square_nonneg (a3 - b3)) as Q3.
    assert (H1 : (a1 - b1) * (a1 - b1) = 0) by lia. assert (H2 : (a2 - b2) * (a2 - b2) = 0) by lia. assert (H3 : (a3 - b3) * (a3 - b3) = 0) by lia.
    apply Z.mul_eq_0 in H1, H2, H3. f_equal; lia.
  - intros E. inversion E. ring.
Qed.
Lemma cnorm2_nonneg a : 0 <= cnorm2 a. Proof. unfold cnorm2. nia. Qed.
Lemma goesTo_iff l i e j : goesTo S l i e j <-> exists f, zget l j = Some f /\ pe_hasmove f = true /\ j <> i /\ pe_c f = cadd (pe_c e) (pe_move e).
Proof using HS.
  unfold goesTo. split; intros (f & A & B & C & D); exists f; split; auto; split; auto; split; auto.
  - apply cnorm2_0. pose proof (cnorm2_nonneg (csub (pe_c f) (cadd (pe_c e) (pe_move e)))). nia.
  - apply cnorm2_0 in D. rewrite D. nia.
Qed.
Lemma idm_In i j : In (i, j) (pr_idmoves p) <-> exists e f, zget (pr_ml p) i = Some e /\ zget (pr_ml p) j = Some f /\ pe_hasmove e = true /\ pe_hasmove f = true /\ i <> j /\ pe_c f = cadd (pe_c e) (pe_move e).
Proof using PO WR HS.
  rewrite (po_idm _ _ _ _ _ _ PO). rewrite idMovesOf_In. split.
  - intros (e & E1 & E2 & E3). pose proof (moveTarget_spec S (pr_ml p) i e) as H. rewrite E3 in H. apply goesTo_iff in H. destruct H as (f & A & B & C & D). exists e, f. auto 10.
  - intros (e & f & E1 & E2 & E3 & E4 & E5 & E6). exists e. split; [exact E1|]. split; [exact E3|]. pose proof (moveTarget_spec S (pr_ml p) i e) as H.
    destruct (moveTarget S (pr_ml p) i e) as [j'|].
    + apply goesTo_iff in H. destruct H as (f' & A & B & C & D). f_equal. eapply ml_inj; eauto. congruence.
    + exfalso. apply (H j). apply goesTo_iff. exists f. auto.
Qed.
Lemma plain_sane : sane p.
Proof using WP PO WR HS.
  constructor.
  - intros e He. apply In_zget in He. destruct He as [j Ej]. destruct (ml_row j e Ej) as (i & r & Er & _ & F). eapply entry_upd0; eauto. eapply zget_In; eauto.
  - rewrite (po_idm _ _ _ _ _ _ PO). apply idMovesOf_fst.
  - intros a b H. apply idm_In in H. destruct H as (e & f & E1 & E2 & _). apply zget_range in E1, E2. auto.
Qed.

Lemma movers_In a b : In (a, b) (movers rows) <-> exists i r v, zget rows i = Some r /\ rw_move r = Some v /\ a = rw_c r /\ b = cadd (rw_c r) v.
Proof using Type.
  unfold movers. rewrite in_flat_map. split.
  - intros (r & Hr & H). destruct (rw_move r) as [v|] eqn:E; [|destruct H]. destruct H as [H|[]]. inversion H; subst. apply In_zget in Hr. destruct Hr as [i Ei]. exists i, r, v. auto.
  - intros (i & r & v & Er & Ev & -> & ->). exists r. split; [eapply zget_In; eauto|]. rewrite Ev. left; reflexivity.
Qed.
Lemma movers_from : NoDup (map fst (movers rows)).
Proof using WR.
  destruct WR as [ND _]. clear -ND. unfold movers. induction rows as [|r l IH]; [constructor|]. cbn [map] in ND. inversion ND as [|? ? Hn ND']; subst. cbn [flat_map]. rewrite map_app.
  destruct (rw_move r); cbn [map app fst]; [|apply IH; exact ND']. constructor; [|apply IH; exact ND'].
  intros Hin. apply Hn. apply in_map_iff in Hin. destruct Hin as ([a b] & E & Hin). cbn [fst] in E. subst a. apply in_flat_map in Hin. destruct Hin as (r' & Hr' & H).
  destruct (rw_move r'); [|destruct H]. destruct H as [H|[]]. injection H as E1 E2. try rewrite <- E1. apply in_map. exact Hr'.
Qed.
Lemma movers_to_inj i i' r r' v v' : movesPermute rows -> zget rows i = Some r -> rw_move r = Some v -> zget rows i' = Some r' -> rw_move r' = Some v' ->
  cadd (rw_c r) v = cadd (rw_c r') v' -> i = i'.
Proof using WR.
  intros MP E1 V1 E2 V2 E. assert (ND : NoDup (map snd (movers rows))) by (eapply Permutation_NoDup; [apply Permutation_sym; exact MP|apply movers_from]).
  assert (H1 : In (rw_c r, cadd (rw_c r) v) (movers rows)) by (apply movers_In; eauto 10).
  assert (H2 : In (rw_c r', cadd (rw_c r) v) (movers rows)) by (apply movers_In; rewrite E; eauto 10).
  apply In_zget in H1. destruct H1 as [k1 K1]. apply In_zget in H2. destruct H2 as [k2 K2].
  assert (k1 = k2) by (eapply (NoDup_zget_inj (map snd (movers rows))); [exact ND|rewrite zget_map, K1; reflexivity|rewrite zget_map, K2; reflexivity]).
  subst k2. assert (rw_c r = rw_c r') by congruence. eapply row_inj; eauto.
Qed.
Lemma hasmove_row r e : entryFor pt r e -> pe_hasmove e = true -> rw_move r = Some (pe_move e).
Proof using Type. intros [_ _ H] Hm. destruct (rw_move r) as [v|]; destruct H as [H1 H2]; congruence. Qed.
Lemma row_hasmove r e v : entryFor pt r e -> rw_move r = Some v -> pe_hasmove e = true /\ pe_move e = v.
Proof using Type. intros [_ _ H] Hm. rewrite Hm in H. exact H. Qed.
Lemma idm_to : movesPermute rows -> NoDup (map snd (pr_idmoves p)).
Proof using PO WR HS.
  intros MP. pose proof (idMovesOf_fst S (pr_ml p)) as NF. rewrite <- (po_idm _ _ _ _ _ _ PO) in NF.
  assert (HI : forall a a' b, In (a, b) (pr_idmoves p) -> In (a', b) (pr_idmoves p) -> a = a').
  { intros a a' b H1 H2. apply idm_In in H1, H2. destruct H1 as (e & f & E1 & E2 & E3 & E4 & E5 & E6), H2 as (e' & f' & F1 & F2 & F3 & F4 & F5 & F6). assert (f' = f) by congruence. subst f'.
    destruct (ml_row _ _ E1) as (i & r & R1 & R2 & R3). destruct (ml_row _ _ F1) as (i' & r' & Q1 & Q2 & Q3).
    assert (i = i').
    { eapply movers_to_inj; eauto using hasmove_row. rewrite <- (en_c _ _ _ R3), <- (en_c _ _ _ Q3). congruence. }
    subst i'. assert (e = e') by congruence. subst e'. eapply ml_inj; eauto. }
  revert NF HI. generalize (pr_idmoves p). clear. induction l as [|[a b] l IH]; intros NF HI; [constructor|]. cbn [map fst snd] in *. inversion NF as [|? ? Hn NF']; subst. constructor.
  - intros Hin. apply in_map_iff in Hin. destruct Hin as ([a' b'] & E & Hin). cbn [snd] in E. subst b'. apply Hn.
    rewrite (HI a a' b); [change a' with (fst (a', b)); apply in_map; exact Hin|left; reflexivity|right; exact Hin].
  - apply IH; [exact NF'|]. intros x x' y H1 H2. apply (HI x x' y); right; assumption.
Qed.
(** the places labels leave are the places labels arrive at *)
Lemma idm_cycle : movesPermute rows -> forall a, (exists b, In (a, b) (pr_idmoves p)) <-> (exists b, In (b, a) (pr_idmoves p)).
Proof using PO WR HS.
  intros MP a. split.
  - intros (b & H). apply idm_In in H. destruct H as (e & f & E1 & E2 & E3 & E4 & E5 & E6). destruct (ml_row _ _ E1) as (i & r & R1 & R2 & R3).
    assert (Hin : In (rw_c r) (map snd (movers rows))).
    { eapply Permutation_in; [apply Permutation_sym; exact MP|]. apply in_map_iff. exists (rw_c r, cadd (rw_c r) (pe_move e)). split; [reflexivity|]. apply movers_In. eauto 10 using hasmove_row. }
    apply in_map_iff in Hin. destruct Hin as ([x y] & Ey & Hin). cbn [snd] in Ey. subst y. apply movers_In in Hin. destruct Hin as (i' & r' & v' & Q1 & Q2 & -> & Q3).
    destruct (row_ml _ _ Q1) as (j' & e' & J1 & J2 & J3). destruct (row_hasmove _ _ _ J3 Q2) as [M1 M2].
    exists j'. apply idm_In. exists e', e. split; [exact J1|]. split; [exact E1|]. split; [exact M1|]. split; [exact E3|]. split.
    + intros ->. assert (e' = e) by congruence. subst e'. assert (i' = i) by (eapply es_inj; eauto). subst i'. assert (r' = r) by congruence. subst r'. apply E5.
      eapply ml_inj; eauto. rewrite E6, M2. rewrite <- (en_c _ _ _ R3) in Q3. exact Q3.
    + rewrite M2, (en_c _ _ _ R3), (en_c _ _ _ J3). exact Q3.
  - intros (b & H). apply idm_In in H. destruct H as (e & f & E1 & E2 & E3 & E4 & E5 & E6). destruct (ml_row _ _ E2) as (i & r & R1 & R2 & R3).
    assert (Hin : In (cadd (rw_c r) (pe_move f)) (map fst (movers rows))).
    { eapply Permutation_in; [exact MP|]. apply in_map_iff. exists (rw_c r, cadd (rw_c r) (pe_move f)). split; [reflexivity|]. apply movers_In. eauto 10 using hasmove_row. }
    apply in_map_iff in Hin. destruct Hin as ([x y] & Ey & Hin). cbn [fst] in Ey. apply movers_In in Hin. destruct Hin as (i' & r' & v' & Q1 & Q2 & Q3 & Q4).
    destruct (row_ml _ _ Q1) as (j' & e' & J1 & J2 & J3). destruct (row_hasmove _ _ _ J3 Q2) as [M1 M2].
    exists j'. apply idm_In. exists f, e'. split; [exact E2|]. split; [exact J1|]. split; [exact E4|]. split; [exact M1|]. split.
    + intros ->. assert (e' = f) by congruence. subst e'. assert (i' = i) by (eapply es_inj; eauto). subst i'. assert (r' = r) by congruence. subst r'.
      destruct (ml_row _ _ E1) as (k & r2 & K1 & K2 & K3). apply E5. eapply ml_inj; eauto.
      assert (k = i).
      { eapply movers_to_inj; eauto using hasmove_row. rewrite <- (en_c _ _ _ K3). rewrite <- E6. rewrite (en_c _ _ _ R3). congruence. }
      subst k. congruence.
    + rewrite (en_c _ _ _ J3), (en_c _ _ _ R3). congruence.
Qed.
End Rows.
