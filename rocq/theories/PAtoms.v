(** Atom labels, their coordinates and elements along a run. *)
From Verif Require Import PBase SModel SGeo SEvent SBuild SPlain SStep SBucket PLattice PProcess PMpi PRateTable PMatcher PPerform PStep PGeo PPossible PRun PEffect PRematch PEvent PBuild PPlain PRow PStepInv PBucket TStep.
Open Scope string_scope.
Open Scope list_scope.
Open Scope Z_scope.

(** the moves of labels agree with the displacements *)
Record displaces (p : process) : Prop := {
  ds_move : forall a b ea eb, In (a, b) (pr_idmoves p) -> zget (pr_ml p) a = Some ea -> zget (pr_ml p) b = Some eb ->
     changes ea /\ ~ wildEntry ea /\ ~ wildEntry eb /\ pe_c eb = cadd (pe_c ea) (pe_move ea);
  ds_still : forall a e, zget (pr_ml p) a = Some e -> (forall b, ~ In (a, b) (pr_idmoves p)) -> changes e -> pe_move e = czero }.
Lemma cadd_cancel a v : cadd a v = a -> v = czero.
Proof. destruct a as [a1 a2 a3], v as [v1 v2 v3]. unfold cadd, czero. cbn. intros H. inversion H. f_equal; lia. Qed.
Lemma plain_displaces S pt rows basis p es : wfPT pt -> plainOf S pt rows basis p es -> wfRows rows -> 0 < S < 1000000 -> movesShow rows -> displaces p.
Proof.
  intros WP PO WR HS [MP MS].
  assert (NW : forall r, In r rows -> rw_before r <> rw_after r -> rw_before r <> "*") by (intros r Hr H E; apply H; rewrite E; symmetry; apply (proj2 WR r Hr); exact E).
  constructor.
  - intros a b ea eb Hab Ea Eb. apply (idm_In _ _ _ _ _ _ PO WR HS) in Hab. destruct Hab as (e & f & E1 & E2 & E3 & E4 & E5 & E6). assert (e = ea) by congruence. assert (f = eb) by congruence. subst e f.
    destruct (ml_row _ _ _ _ _ _ PO a ea Ea) as (i & r & Er & Es & F). destruct (ml_row _ _ _ _ _ _ PO b eb Eb) as (i' & r' & Er' & Es' & F').
    pose proof (hasmove_row _ _ _ F E3) as V. pose proof (hasmove_row _ _ _ F' E4) as V'.
    assert (N1 : pe_move ea <> czero) by (intros Z0; rewrite Z0, cadd_0_r in E6; apply E5; eapply (ml_inj _ _ _ _ _ _ PO WR); eauto).
    assert (N2 : pe_move eb <> czero).
    { intros Z0. apply E5. assert (i = i'); [|subst i'; assert (r' = r) by congruence; subst r'; eapply (ml_inj _ _ _ _ _ _ PO WR); eauto; rewrite (en_c _ _ _ F), (en_c _ _ _ F'); reflexivity].
      eapply movers_to_inj; eauto. rewrite Z0, cadd_0_r, <- (en_c _ _ _ F), <- (en_c _ _ _ F'). auto. }
    assert (B1 : rw_before r <> rw_after r) by (apply MS; [eapply zget_In; eauto|congruence|congruence]). assert (B2 : rw_before r' <> rw_after r') by (apply MS; [eapply zget_In; eauto|congruence|congruence]).
    split; [apply (entry_changes _ WP _ _ F); exact B1|]. split; [rewrite (entry_wild _ WP _ _ F); apply NW; [eapply zget_In; eauto|exact B1]|].
    split; [rewrite (entry_wild _ WP _ _ F'); apply NW; [eapply zget_In; eauto|exact B2]|exact E6].
  - intros a e Ea Hn _. destruct (ml_row _ _ _ _ _ _ PO a e Ea) as (i & r & Er & Es & F). pose proof (en_move _ _ _ F) as M. destruct (rw_move r) as [v|] eqn:V; [|apply M]. destruct M as [M1 M2].
    assert (Hin : In (cadd (rw_c r) v) (map fst (movers rows))).
    { eapply Permutation_in; [exact MP|]. apply in_map_iff. exists (rw_c r, cadd (rw_c r) v). split; [reflexivity|]. apply movers_In. eauto 10. }
    apply in_map_iff in Hin. destruct Hin as ([q q'] & Eq & Hin). cbn [fst] in Eq. apply movers_In in Hin. destruct Hin as (i' & r' & v' & Er' & V' & Q1 & Q2).
    destruct (row_ml _ _ _ _ _ _ PO i' r' Er') as (b & f & Eb & Es' & F'). destruct (row_hasmove _ _ _ _ F' V') as [M3 M4].
    destruct (Z.eq_dec a b) as [->|Hab].
    + assert (f = e) by congruence. subst f. rewrite M2. apply (cadd_cancel (rw_c r)). rewrite <- Eq, Q1, <- (en_c _ _ _ F'), <- (en_c _ _ _ F). reflexivity.
    + exfalso. apply (Hn b). apply (idm_In _ _ _ _ _ _ PO WR HS). exists e, f. split; [exact Ea|]. split; [exact Eb|]. split; [exact M1|]. split; [exact M3|]. split; [exact Hab|].
      rewrite (en_c _ _ _ F'), (en_c _ _ _ F), M2, <- Q1. exact Eq.
Qed.
Lemma bucket_displaces S pt rows basis p es : bucketProc S pt rows basis p es -> displaces p.
Proof.
  intros BO. constructor.
  - intros a b ea eb H. rewrite (bo_idm _ _ _ _ _ _ BO) in H. destruct H.
  - intros a e Ea _ _. destruct (bml_row _ _ _ _ _ _ BO e (zget_In _ _ _ Ea)) as (r & _ & F). apply F.
Qed.

(** sites and labels *)
Definition tracked (L : lattice) (cf : config) : Prop :=
  forall y id, zget (cf_aid cf) y = Some id -> exists a c, zget (cf_coords cf) y = Some a /\ zget (cf_aidcoords cf) id = Some c /\ sameDisp L a c.
Lemma sameDisp_refl L a : sameDisp L a a.
Proof. unfold sameDisp, sameMod. repeat split; (destruct (_ : bool); [exists 0; lia|reflexivity]). Qed.
Lemma sameDisp_add L a b c d : sameDisp L a b -> sameDisp L c d -> sameDisp L (cadd a c) (cadd b d).
Proof.
  unfold sameDisp, cadd. cbn [cx cy cz]. assert (H : forall p P u v w z, sameMod p P u v -> sameMod p P w z -> sameMod p P (u + w) (v + z)).
  { intros [] P u v w z; cbn; [intros [n ->] [m ->]; exists (n + m); lia|intros -> ->; reflexivity]. }
  intros (A1 & A2 & A3) (B1 & B2 & B3). auto.
Qed.
Lemma sameDisp_opp L a b c d : sameDisp L (csub a c) b -> sameDisp L a d -> sameDisp L c (csub d b).
Proof.
  unfold sameDisp, csub. cbn [cx cy cz]. assert (H : forall p P u v w z, sameMod p P (u - w) v -> sameMod p P u z -> sameMod p P w (z - v)).
  { intros [] P u v w z; cbn; [intros [n ->] [m ->]; exists (m - n); lia|intros -> ->; lia]. }
  intros (A1 & A2 & A3) (B1 & B2 & B3). split; [|split]; eapply H; eauto.
Qed.
Lemma closeTo_eq S a b : 0 < S < 100000 -> closeTo S a b -> a = b.
Proof. intros HS (H1 & H2 & H3). destruct a as [a1 a2 a3], b as [b1 b2 b3]. cbn [cx cy cz] in *. f_equal; lia. Qed.
Lemma suits_disp L cf x e y : 0 < lt_unit L < 100000 -> suits L cf x e y -> exists a b, zget (cf_coords cf) x = Some a /\ zget (cf_coords cf) y = Some b /\ sameDisp L (csub b a) (pe_c e).
Proof. intros HS (a & b & d & t & E1 & E2 & E3 & E4 & _). apply closeTo_eq in E4; [|exact HS]. subst d. eauto. Qed.
Lemma tracked_event L cf cf' p x ys : 0 < lt_unit L < 100000 -> eventFx L cf cf' p x ys -> sane p -> idmovesCycle p -> displaces p -> NoDup (cf_aid cf) -> tracked L cf -> tracked L cf'.
Proof.
  intros HS EF SN [CN CY] DS ND HT y id Ey. pose proof (ef_len _ _ _ _ _ _ EF) as HLen. destruct (ef_same _ _ _ _ _ _ EF) as (EC & _). rewrite EC.
  destruct (existsb (fun m => match zget ys (snd m) with Some z => z =? y | None => false end) (pr_idmoves p)) eqn:EX.
  - apply existsb_exists in EX. destruct EX as ([a b] & Hab & Hz). cbn [snd] in Hz. destruct (zget ys b) as [z|] eqn:Eb; [|discriminate]. apply Z.eqb_eq in Hz. subst z.
    destruct (sn_idrange _ SN a b Hab) as [Ra Rb]. destruct (zget_lt _ _ Ra) as [ea Eea]. destruct (zget_lt _ _ Rb) as [eb Eeb]. destruct (zget_lt ys a) as [ya Eya]; [lia|].
    destruct (ds_move _ DS a b ea eb Hab Eea Eeb) as (C1 & W1 & W2 & PC). rewrite (ef_aid _ _ _ _ _ _ EF CN a b ya y Hab Eya Eb) in Ey.
    destruct (HT ya id Ey) as (ca & c & A1 & A2 & A3). rewrite (ef_coords _ _ _ _ _ _ EF ND a ea ya id c Eea Eya C1 Ey A2).
    destruct (ef_site _ _ _ _ _ _ EF a ea ya Eea Eya) as [W|S1]; [tauto|]. destruct (ef_site _ _ _ _ _ _ EF b eb y Eeb Eb) as [W|S2]; [tauto|].
    apply suits_disp in S1, S2; try exact HS. destruct S1 as (u & w & U1 & U2 & U3), S2 as (u' & w' & V1 & V2 & V3). assert (u' = u) by congruence. subst u'. assert (w = ca) by congruence. subst w.
    exists w', (cadd c (pe_move ea)). split; [exact V2|]. split; [reflexivity|].
    pose proof (sameDisp_opp _ _ _ _ _ U3 A3) as X. pose proof (sameDisp_add _ _ _ _ _ X V3) as Y. rewrite PC in Y.
    replace (cadd u (csub w' u)) with w' in Y by (destruct u, w'; unfold cadd, csub; cbn; f_equal; lia).
    replace (cadd (csub c (pe_c ea)) (cadd (pe_c ea) (pe_move ea))) with (cadd c (pe_move ea)) in Y by (unfold cadd, csub; cbn; f_equal; lia). exact Y.
  - assert (NT : forall a b, In (a, b) (pr_idmoves p) -> zget ys b <> Some y).
    { intros a b Hab E. assert (X : existsb (fun m => match zget ys (snd m) with Some z => z =? y | None => false end) (pr_idmoves p) = true); [|congruence].
      apply existsb_exists. exists (a, b). split; [exact Hab|]. cbn [snd]. rewrite E. apply Z.eqb_refl. }
    rewrite (ef_aid_other _ _ _ _ _ _ EF y NT) in Ey. destruct (HT y id Ey) as (ca & c & A1 & A2 & A3). exists ca, c. split; [exact A1|]. split; [|exact A3].
    destruct (in_dec Z.eq_dec y ys) as [Hin|Hout].
    + apply In_zget in Hin. destruct Hin as [j Ej]. destruct (zget_lt (pr_ml p) j) as [e Ee]; [rewrite <- HLen; eapply zget_range; eauto|]. destruct (changes_dec e) as [C|C].
      * rewrite (ef_coords _ _ _ _ _ _ EF ND j e y id c Ee Ej C Ey A2), (ds_still _ DS j e Ee); [rewrite cadd_0_r; reflexivity| |exact C].
        intros b Hb. destruct (proj1 (CY j)) as [b' Hb']; [eauto|]. exact (NT _ _ Hb' Ej).
      * rewrite (ef_coords_other _ _ _ _ _ _ EF id); [exact A2|]. intros j' e' y' E1 E2 C' E3. assert (y' = y) by (eapply NoDup_zget_inj; eauto). subst y'.
        assert (j' = j) by (eapply NoDup_zget_inj; [apply EF|exact E2|exact Ej]). subst j'. congruence.
    + rewrite (ef_coords_other _ _ _ _ _ _ EF id); [exact A2|]. intros j' e' y' E1 E2 C' E3. assert (y' = y) by (eapply NoDup_zget_inj; eauto). subst y'. apply Hout. eapply zget_In; eauto.
Qed.

(** elements of labels *)
Lemma holds_inj cf y s s' : holds cf y s -> holds cf y s' -> s = s'.
Proof. intros [H _] [H' _]. congruence. Qed.
Definition labelled (cf : config) : Prop := forall y id, zget (cf_aid cf) y = Some id -> exists s, holds cf y s /\ zget (cf_aidelements cf) id = Some s.
Lemma holds_keep cf cf' y s : cf_ptypes cf' = cf_ptypes cf -> zget (cf_types cf') y = zget (cf_types cf) y /\ zget (cf_elements cf') y = zget (cf_elements cf) y -> holds cf y s -> holds cf' y s.
Proof. intros EP [E1 E2] (S1 & k & t & S2 & S3 & S4). split; [congruence|]. exists k, t. rewrite EP. split; [exact S2|]. split; [congruence|exact S4]. Qed.
Lemma labelled_event L cf cf' rows x ys : rowEvent L cf cf' rows x ys -> wfRows rows -> carries rows -> cf_ptypes cf' = cf_ptypes cf -> NoDup (cf_aid cf) -> labelled cf ->
  forall y id, zget (cf_aid cf') y = Some id -> exists s, holds cf' y s /\ zget (cf_aidelements cf') id = Some s /\ zget (cf_aidelements cf) id = Some s.
Proof.
  intros RE WR (MP & C1 & C2 & C3) EP ND HL y id Ey.
  assert (ROW : forall z j, zget ys j = Some z -> exists r, zget rows j = Some r) by (intros z j Ej; apply zget_lt; rewrite <- (re_len _ _ _ _ _ _ RE); eapply zget_range; eauto).
  assert (STILL : (forall i r, zget rows i = Some r -> zget ys i = Some y -> rw_move r = None) ->
    zget (cf_types cf') y = zget (cf_types cf) y /\ zget (cf_elements cf') y = zget (cf_elements cf) y ->
    exists s, holds cf' y s /\ zget (cf_aidelements cf') id = Some s /\ zget (cf_aidelements cf) id = Some s).
  { intros HN HSame. rewrite (re_aid_other _ _ _ _ _ _ RE MP y HN) in Ey. destruct (HL y id Ey) as (s & S1 & S2). exists s. split; [eapply holds_keep; eauto|]. split; [|exact S2]. rewrite <- S2.
    apply (re_aidel_other _ _ _ _ _ _ RE). intros i r z Er Ez Eid. assert (z = y) by (eapply NoDup_zget_inj; eauto). subst z. rewrite (HN i r Er Ez). split; [intros _; apply C1; [eapply zget_In; eauto|eapply HN; eauto]|discriminate]. }
  destruct (in_dec Z.eq_dec y ys) as [Hin|Hout]; [|apply STILL; [intros i r _ E; exfalso; apply Hout; eapply zget_In; eauto|apply (re_other _ _ _ _ _ _ RE); exact Hout]].
  apply In_zget in Hin. destruct Hin as [i' Ei']. destruct (ROW _ _ Ei') as [r' Er']. destruct (rw_move r') as [v'|] eqn:V'.
  - assert (Hin : In (rw_c r') (map snd (movers rows))).
    { eapply Permutation_in; [apply Permutation_sym; exact MP|]. apply in_map_iff. exists (rw_c r', cadd (rw_c r') v'). split; [reflexivity|]. apply movers_In. eauto 10. }
    apply in_map_iff in Hin. destruct Hin as ([q q'] & Eq & Hin). cbn [snd] in Eq. apply movers_In in Hin. destruct Hin as (i & r & v & Er & V & Q1 & Q2).
    assert (EC : rw_c r' = cadd (rw_c r) v) by congruence. destruct (zget_lt ys i) as [z Ez]; [rewrite (re_len _ _ _ _ _ _ RE); eapply zget_range; eauto|].
    assert (NM : rw_move r' <> None) by congruence. rewrite (re_aid _ _ _ _ _ _ RE MP i r v z i' r' y Er Ez V Er' Ei' NM EC) in Ey. destruct (HL z id Ey) as (s & S1 & S2).
    assert (NB : rw_before r <> "*") by (apply C2; [eapply zget_In; eauto|congruence]).
    assert (s = rw_before r) by (eapply holds_inj; [exact S1|]; eapply (re_before _ _ _ _ _ _ RE); eauto). subst s.
    assert (EA : rw_after r' = rw_before r) by (eapply C3; eauto; eapply zget_In; eauto).
    assert (H' : holds cf' y (rw_before r)) by (rewrite <- EA; eapply (re_after _ _ _ _ _ _ RE); eauto; congruence).
    exists (rw_before r). split; [exact H'|]. split; [|exact S2]. destruct (Z.eq_dec i i') as [->|Hne].
    + rewrite <- S2. apply (re_aidel_other _ _ _ _ _ _ RE). intros k rk zk Erk Ezk Eid. assert (zk = z) by (eapply NoDup_zget_inj; eauto). subst zk.
      assert (k = i') by (eapply NoDup_zget_inj; [apply RE|exact Ezk|exact Ez]). subst k. assert (rk = r) by congruence. subst rk. split; [congruence|].
      intros w k r2 Ew Ek _ Ec. assert (w = v) by congruence. subst w. symmetry. eapply (row_inj rows WR); [exact Ek|exact Er'|congruence].
    + destruct (re_aidel_moved _ _ _ _ _ _ RE ND i r v z i' r' y id Er Ez V Er' Ei' NM EC Hne Ey) as (s' & T1 & T2). rewrite T2. destruct H' as [H' _]. congruence.
  - apply STILL.
    + intros i r Er Ez. assert (i = i') by (eapply NoDup_zget_inj; [apply RE|exact Ez|exact Ei']). subst i. congruence.
    + eapply (re_same _ _ _ _ _ _ RE); eauto. symmetry. apply C1; [eapply zget_In; eauto|exact V'].
Qed.
