(** C06 in the terms of the user: which events of a process are listed, said of the rows the process was written with. *)
From Verif Require Import PBase SModel SGeo SEvent SBuild SPlain SStep SBucket SPossible PLattice PProcess PMatcher PPerform PStep PGeo PPossible PRun PEffect PRematch PEvent PBuild PPlain PRow PStepInv PBucket PRegular TMatch TStep XCheck XSystems XRows.
Open Scope string_scope.
Open Scope list_scope.
Open Scope Z_scope.

(** ** C06 *)
(** For every process built by the constructor from rows at distinct lattice positions around the first one, the number of cells
    the constructor reads off the positions is enough: in every state of every run the sites listed for the process are
    exactly the sites of its basis point where every row finds its particles. *)
Theorem C06_rows_listed_iff_possible ranks hash L basis cf it spec md i p b x :
  userInput ranks L cf it spec -> geoInput L basis (maxRange it) (zlen (cf_ptypes cf)) cf -> in_wild it = true ->
  reachable ranks hash L cf it md -> nonNegative (md_cf md) ->
  zget (in_procs it) i = Some p -> pr_basis p = [b] -> placed L basis (pr_custom p) b (positions (spec i)) -> 0 <= x < nsites L ->
  (listed md i x <-> basisSiteFromIndex L x = b /\ rowsMatch L (md_cf md) (spec i) x).
Proof.
  intros UI GI HW HR HN Ep Eb PL Hx.
  rewrite (C06_listed_iff_possible _ _ _ _ _ _ _ _ _ _ _ (ui_wf _ _ _ _ _ UI) GI HW HR Ep (user_regular _ _ _ _ _ _ _ UI GI _ _ _ Ep Eb PL) Hx).
  destruct (reach_static _ _ _ _ _ _ HR) as (E1 & _ & E2).
  eapply possible_rows; eauto. intros t Ht. eapply reach_width; [eapply user_std; exact UI|exact HR|exact Ht].
Qed.

(** ** C51 *)
(** The positions of a process stay within the number of cells that are rematched around a changed site. *)
Theorem C51_positions_within_range ranks L basis cf it spec i p b c :
  userInput ranks L cf it spec -> geoInput L basis (maxRange it) (zlen (cf_ptypes cf)) cf ->
  zget (in_procs it) i = Some p -> placed L basis (pr_custom p) b (positions (spec i)) -> In c (positions (spec i)) ->
  forall x y, basisSiteFromIndex L x = b -> siteAt L (cf_coords cf) x c y -> 0 <= x < nsites L -> nearSites L (maxRange it) x y.
Proof.
  intros UI GI Ep PL Hc x y Hb HA Hx. pose proof (positions_reach _ _ _ _ _ _ _ UI GI _ _ _ Ep PL c Hc) as HI.
  pose proof (wi_lat _ _ _ _ (ui_wf _ _ _ _ _ UI)) as WF. destruct GI. rewrite gi_coords in HA. rewrite <- Hb in HI.
  destruct (reach_near L WF basis gi_basis (maxRange it) ltac:(pose proof (maxRange_pos it); lia) gi_uniform x c Hx HI) as (y' & cx0 & d & Ec & Ed & N & E).
  assert (HA' : siteAt L (generateLatticeSites L basis) x c y') by (exists cx0, d; split; [exact Ec|]; split; [exact Ed|]; rewrite <- E; eapply disp_spec; eauto).
  assert (y' = y) by (eapply siteAt_unique; eauto). subst. exact N.
Qed.

(** ** Examples *)
Definition cellsSeenb (custom : bool) (i delta : Z) : bool := ((i <=? 1) || (0 <=? delta)) && ((-1 <=? i) || negb custom || (delta <=? 0)).
Definition axisStepb (custom p : bool) (rep S i x delta : Z) : bool :=
  (x =? delta + i * S) && cellsSeenb custom i delta && (p || (i =? 0)) && (negb p || ((- (rep * S) <=? 2 * x) && (2 * x <? rep * S))).
Lemma axisStepb_sound custom p rep S i x delta : axisStepb custom p rep S i x delta = true -> axisStep custom p rep S i x delta.
Proof.
  unfold axisStepb, axisStep, cellsSeenb, cellsSeen, window1. rewrite !andb_true_iff, !orb_true_iff, !andb_true_iff, !negb_true_iff, !Z.leb_le, !Z.ltb_lt, !Z.eqb_eq.
  intros (((A & B & C) & D) & E). split; [exact A|]. split; [split; [lia|intros H ->; destruct C as [[|]|]; [lia|discriminate|lia]]|]. split; [intros ->; destruct D; [discriminate|assumption]|]. intros ->. destruct E as [E|E]; [discriminate|exact E].
Qed.
Definition leadsOnb (L : lattice) (basis : list coord) (custom : bool) (b : Z) (c : coord) : bool :=
  somewhere (zget basis b) (fun beta => existsb (fun beta' =>
    axisStepb custom (lt_pa L) (lt_ra L) (lt_unit L) ((cx c - (cx beta' - cx beta)) / lt_unit L) (cx c) (cx beta' - cx beta) &&
    axisStepb custom (lt_pb L) (lt_rb L) (lt_unit L) ((cy c - (cy beta' - cy beta)) / lt_unit L) (cy c) (cy beta' - cy beta) &&
    axisStepb custom (lt_pc L) (lt_rc L) (lt_unit L) ((cz c - (cz beta' - cz beta)) / lt_unit L) (cz c) (cz beta' - cz beta)) basis).
Definition placedb (L : lattice) (basis : list coord) (custom : bool) (b : Z) (cs : list coord) : bool :=
  match cs with c :: _ => ceqb c czero | [] => false end && nodupb ceqb cs && forallb (leadsOnb L basis custom b) cs.
Lemma placedb_sound L basis custom b cs : placedb L basis custom b cs = true -> placed L basis custom b cs.
Proof.
  unfold placedb. rewrite !andb_true_iff. intros ((A & B) & C). constructor.
  - destruct cs as [|c cs]; [discriminate|]. apply ceqb_eq in A. subst c. reflexivity.
  - eapply nodupb_sound; [apply ceqb_refl|exact B].
  - intros c Hc. rewrite forallb_forall in C. specialize (C c Hc). unfold leadsOnb in C. apply somewhere_Some in C. destruct C as (beta & E & C). apply existsb_exists in C. destruct C as (beta' & Hin & C).
    apply In_zget in Hin. destruct Hin as [b' E']. rewrite !andb_true_iff in C. destruct C as ((C1 & C2) & C3). apply axisStepb_sound in C1, C2, C3. exists b', beta, beta'. eauto 10.
Qed.
(** bucket processes on two basis points: process 1 looks at its own site, at one half a cell back and one half a cell on *)
Example C06_rows_example : exists cf it md p x x', userInput 3 x2L cf it (specOf xcSpecs) /\ geoInput x2L x2basis (maxRange it) (zlen (cf_ptypes cf)) cf /\ in_wild it = true /\
  reachable 3 xhash x2L cf it md /\ nonNegative (md_cf md) /\ zget (in_procs it) 0 = Some p /\ pr_basis p = [0] /\ placed x2L x2basis (pr_custom p) 0 (positions (specOf xcSpecs 0)) /\
  0 <= x < nsites x2L /\ listed md 0 x /\ 0 <= x' < nsites x2L /\ basisSiteFromIndex x2L x' = 0 /\ ~ listed md 0 x'.
Proof.
  assert (H : xcCheck (fun cf it md md' => geoInputb x2L x2basis (maxRange it) (zlen (cf_ptypes cf)) cf && in_wild it && forallb (forallb (fun n => 0 <=? n)) (cf_types (md_cf md)) &&
     somewhere (zget (in_procs it) 0) (fun p => list_eqb (pr_basis p) [0] && placedb x2L x2basis (pr_custom p) 0 (positions (specOf xcSpecs 0))) &&
     somewhere (zget (in_procs (md_in md)) 0) (fun p => existsb (fun x => negb (zmem x (pr_sites p)) && (basisSiteFromIndex x2L x =? 0)) (zrange 0 (nsites x2L - 1)) &&
        match events p with [] => false | e :: _ => (0 <=? fst e) && (fst e <? nsites x2L) end)) = true) by (vm_compute; reflexivity).
  unfold xcCheck in H. apply userCheck_sound in H. destruct H as (cf & it & md & md' & US & H). rewrite !andb_true_iff in H. destruct H as ((((H1 & H2) & H3) & H4) & H5).
  apply somewhere_Some in H4. destruct H4 as (p & Ep & H4). apply andb_true_iff in H4. destruct H4 as [H4 H4'].
  apply somewhere_Some in H5. destruct H5 as (p' & Ep' & H5). apply andb_true_iff in H5. destruct H5 as [H5 H6]. apply existsb_exists in H5. destruct H5 as (x' & Hx' & H5). apply andb_true_iff in H5. destruct H5 as [H5 H7].
  destruct (events p') as [|[x r] l] eqn:Ev; [discriminate|]. cbn [fst] in H6.
  exists cf, it, md, p, x, x'. split; [inputOf US|]. split; [apply geoInputb_sound; exact H1|]. split; [exact H2|]. split; [reached US|].
  split; [intros y t k n Et En; rewrite forallb_forall in H3; specialize (H3 t (zget_In _ _ _ Et)); rewrite forallb_forall in H3; apply Z.leb_le, H3; eapply zget_In; eauto|].
  split; [exact Ep|]. split; [destruct (pr_basis p) as [|b [|]]; cbn in H4; try discriminate; rewrite ?andb_true_r in H4; [apply Z.eqb_eq in H4; congruence|rewrite andb_false_r in H4; discriminate]|]. split; [apply placedb_sound; exact H4'|].
  apply andb_true_iff in H6. split; [lia|]. split; [exists r, p'; split; [exact Ep'|rewrite Ev; left; reflexivity]|]. apply In_zrange in Hx'. split; [lia|]. split; [apply Z.eqb_eq; exact H7|].
  intros (r' & q & Eq & Hin). assert (q = p') by congruence. subst q. apply in_events_sites in Hin. apply zmem_In in Hin. rewrite Hin in H5. discriminate.
Qed.

Print Assumptions C06_rows_listed_iff_possible.
Print Assumptions C51_positions_within_range.
