(** When the surroundings of the sites reach beyond the cutoffs: a criterion in terms of the lattice. *)
From Verif Require Import PBase SModel SGeo SEvent SBuild SPlain SStep SBucket SPossible SNoUB PLattice PProcess PMpi PRateTable PMatcher PPerform PStep PRun PGeo PPossible PRematch PEffect PEvent
  PBuild PPlain PStepInv PRow PBucket PRegular TSelect TStep PRates PEnv PCache PNoUB PNoUB2 PNoUB3.
Open Scope string_scope.
Open Scope list_scope.
Open Scope Z_scope.

(** ** the cutoff of a process covers its positions *)
Lemma built_cut S pt sp p : builtFrom S pt sp p -> zget (positions sp) 0 = Some czero -> forall c, In c (positions sp) -> cnorm2 c <= pr_cut2 p.
Proof.
  assert (G : forall first second rate basis origins vectors number p, zget (cf_coords first) 0 = Some czero -> zlen (cf_elements first) = zlen (cf_coords first) ->
    (mkProcess S first second rate basis origins vectors number = Some p \/ exists cutoff cache, mkCustomProcess S first second rate basis cutoff origins vectors number cache = Some p) -> forall c, In c (cf_coords first) -> cnorm2 c <= pr_cut2 p).
  { intros first second rate basis origins vectors number q E0 HL [H|(cutoff & cache & H)] c Hc.
    - destruct (mkProcess_covers _ _ _ _ _ _ _ _ _ E0 HL H) as [_ Q]. apply (Q c Hc).
    - unfold mkCustomProcess in H. ob H as p0 Ep0. destruct (mkProcess_covers _ _ _ _ _ _ _ _ _ E0 HL Ep0) as [_ Q]. destruct (Q c Hc) as [_ Q2]. inversion H; subst q; clear H. cbn [pr_cut2].
      destruct ((0 <=? cutoff) && (pr_cut2 p0 <? cutoff * cutoff)) eqn:E; [|exact Q2]. apply andb_true_iff in E. destruct E as [_ E]. apply Z.ltb_lt in E. lia. }
  intros B E0 c Hc. destruct sp as [rows|rows]; cbn [builtFrom positions] in *.
  - destruct B as [_ (basis & first & second & origins & vectors & rate & number & E1 & E2 & MG & H)].
    apply mkConfiguration_info in E1. destruct E1 as [A1 A2 _ _ _ _ _ _ _ _ _].
    assert (HL : zlen (cf_elements first) = zlen (cf_coords first)) by (rewrite A1, A2, !zlen_map; reflexivity). rewrite <- A1 in E0, Hc. eapply G; eauto.
  - destruct B as [_ (basis & first & rate & number & E1 & H)].
    apply mkConfiguration_info in E1. destruct E1 as [A1 A2 _ _ _ _ _ _ _ _ _].
    assert (HL : zlen (cf_elements first) = zlen (cf_coords first)) by (rewrite A1, A2, !zlen_map; reflexivity). rewrite <- A1 in E0, Hc. eapply G; eauto.
Qed.

(** ** lists ordered by distance *)
Definition within (cut2 : Z) (c : centry) : bool := ce_d2 c <=? cut2.
Lemma clt_norm a b : clt a b = true -> cnorm2 a <= cnorm2 b.
Proof. unfold clt. generalize (cnorm2 a) (cnorm2 b). intros n m. destruct (Z.eqb_spec n m); [lia|]. rewrite Z.ltb_lt. lia. Qed.
Lemma split_within P cut2 cl : Forall (goodC P) cl -> csorted (map ce_c cl) -> cl = filter (within cut2) cl ++ filter (fun c => negb (within cut2 c)) cl.
Proof.
  induction cl as [|c cl IH]; intros G SC; [reflexivity|]. inversion G as [|? ? G1 G2]; subst. cbn [map] in SC. inversion SC as [|? ? SC1 SC2]; subst. cbn [filter]. destruct (within cut2 c) eqn:E; cbn [negb app].
  - f_equal. apply IH; assumption.
  - assert (N : forall d, In d cl -> within cut2 d = false).
    { intros d Hd. rewrite Forall_forall in SC2, G2. pose proof (clt_norm _ _ (SC2 _ (in_map ce_c _ _ Hd))). destruct (G2 d Hd) as [D _]. destruct G1 as [D1 _]. unfold within in *. apply Z.leb_gt in E. apply Z.leb_gt. lia. }
    assert (F1 : filter (within cut2) cl = []) by (clear - N; induction cl as [|d cl IH]; [reflexivity|]; cbn [filter]; rewrite (N d (or_introl eq_refl)); apply IH; intros; apply N; now right).
    assert (F2 : filter (fun c => negb (within cut2 c)) cl = cl) by (clear - N; induction cl as [|d cl IH]; [reflexivity|]; cbn [filter]; rewrite (N d (or_introl eq_refl)); cbn [negb]; f_equal; apply IH; intros; apply N; now right).
    rewrite F1, F2. reflexivity.
Qed.
Lemma insert_within S P cut2 : 0 < S < 100000 -> cleanPts S P -> forall cl pl n, Forall (goodC P) cl -> Forall (goodP P) pl -> csorted (map ce_c cl) -> csorted (map pe_c pl) ->
  (forall e, In e pl -> In (pe_c e) (map ce_c cl)) -> (forall e, In e pl -> cnorm2 (pe_c e) <= cut2) ->
  (length (fst (insertWildcards S pl cl n)) <= length (filter (within cut2) cl))%nat.
Proof.
  intros HS HP. induction cl as [|c cl IH]; intros pl n GC GP SC SP HI HC; cbn [insertWildcards].
  - destruct pl as [|p pl]; [cbn; lia|exfalso; apply (HI p); left; reflexivity].
  - destruct pl as [|p pl]; [cbn [fst length]; lia|].
    inversion GC as [|? ? G1 G2]; subst. inversion GP as [|? ? G3 G4]; subst. destruct G1 as [D1 P1]. destruct G3 as [D3 P3].
    cbn [map] in SC, SP. inversion SC as [|? ? SC1 SC2]; subst. inversion SP as [|? ? SP1 SP2]; subst.
    rewrite D1, D3, (samePoint_clean S HS P HP) by auto. destruct (ceqb (pe_c p) (ce_c c)) eqn:E.
    + apply ceqb_eq in E. specialize (IH pl (n + 1) G2 G4 SC1 SP1). destruct (insertWildcards S pl cl (n + 1)) as [l m]. cbn [fst snd length filter] in *.
      assert (W : within cut2 c = true) by (unfold within; apply Z.leb_le; rewrite D1, <- E; apply HC; left; reflexivity). rewrite W. cbn [length]. apply le_n_S, IH.
      * intros e He. destruct (HI e (or_intror He)) as [H|H]; [|exact H]. exfalso. rewrite Forall_forall in SP2. specialize (SP2 (pe_c e) (in_map pe_c _ _ He)). rewrite <- H, <- E, clt_irrefl in SP2. discriminate.
      * intros e He. apply HC. right. exact He.
    + assert (Hne : pe_c p <> ce_c c) by (intros H; apply ceqb_eq in H; congruence). specialize (IH (p :: pl) (n + 1) G2 GP SC1 SP).
      destruct (insertWildcards S (p :: pl) cl (n + 1)) as [l m]. cbn [fst snd length filter] in *.
      assert (Hp : clt (ce_c c) (pe_c p) = true).
      { destruct (HI p (or_introl eq_refl)) as [H|H]; [congruence|]. rewrite Forall_forall in SC2. auto. }
      assert (W : within cut2 c = true) by (unfold within; apply Z.leb_le; rewrite D1; apply Z.le_trans with (cnorm2 (pe_c p)); [apply clt_norm; exact Hp|apply HC; left; reflexivity]). rewrite W. cbn [length]. apply le_n_S, IH; [|exact HC].
      assert (Hlt : forall e, In e (p :: pl) -> clt (ce_c c) (pe_c e) = true).
      { intros e [<-|He]; [exact Hp|]. rewrite Forall_forall in SP2. eapply clt_trans; [exact Hp|]. apply SP2. apply in_map; auto. }
      intros e He. destruct (HI e He) as [H|H]; [|exact H]. specialize (Hlt e He). rewrite <- H, clt_irrefl in Hlt. discriminate.
Qed.
(** the number of entries within the cutoff depends on the positions only *)
Lemma within_same P Q cut2 cl cl' : Forall (goodC P) cl -> Forall (goodC Q) cl' -> map ce_c cl = map ce_c cl' -> length (filter (within cut2) cl) = length (filter (within cut2) cl').
Proof.
  revert cl'. induction cl as [|c cl IH]; intros [|c' cl'] G G' E; try discriminate; [reflexivity|]. inversion G as [|? ? [G1 _] G2]; subst. inversion G' as [|? ? [H1 _] H2]; subst. cbn [map] in E. injection E as E1 E2. cbn [filter]. assert (X : within cut2 c = within cut2 c') by (unfold within; rewrite G1, H1, E1; reflexivity). rewrite X.
  destruct (within cut2 c'); cbn [length]; rewrite (IH cl' G2 H2 E2); reflexivity.
Qed.
Lemma filter_map_with types cut2 g : filter (within cut2) (map (withTypes types) g) = map (withTypes types) (filter (within cut2) g).
Proof. induction g as [|c g IH]; [reflexivity|]. cbn [map filter]. change (within cut2 (withTypes types c)) with (within cut2 c). destruct (within cut2 c); cbn [map]; rewrite IH; reflexivity. Qed.

Section Room.
Context (ranks : Z) (L : lattice) (basis : list coord) (cf : config) (it : interactions) (spec : Z -> pspec).
Notation W := (zlen (cf_ptypes cf)).
Context (UI : userInput ranks L cf it spec) (GI : geoInput L basis (maxRange it) W cf) (HWI : in_wild it = true) (NUM : numbered it).
Context (PLA : forall i p, zget (in_procs it) i = Some p -> exists b, pr_basis p = [b] /\ placed L basis (pr_custom p) b (positions (spec i))).
Context (FAR : forall i p b, zget (in_procs it) i = Some p -> pr_basis p = [b] -> exists v, inReach L basis (maxRange it) b v /\ pr_cut2 p < cnorm2 v).
Notation WI := (ui_wf _ _ _ _ _ UI).
Notation R := (maxRange it).

Lemma sorted_at x b g : 0 <= x < nsites L -> basisSiteFromIndex L x = b -> 0 <= b < lt_nb L -> scratchGeo L R (cf_coords cf) x = Some g -> sortedGeo L basis R x g.
Proof using UI GI.
  intros Hx Hb Hr Hg. pose proof (maxRange_pos it). rewrite (gi_coords _ _ _ _ _ GI) in Hg. apply scratchGeo_sorted; auto; [apply WI|apply GI|lia|apply GI|apply GI|]. rewrite Hb. unfold cleanAt. apply GI. exact Hr.
Qed.
Lemma spec_cut i p b : zget (in_procs it) i = Some p -> pr_basis p = [b] -> placed L basis (pr_custom p) b (positions (spec i)) -> 0 <= pr_cut2 p /\ forall e, In e (pr_ml p) -> cnorm2 (pe_c e) <= pr_cut2 p.
Proof using UI.
  intros Ep Eb PL. pose proof (ui_procs _ _ _ _ _ UI i p Ep) as B. pose proof (ui_pt _ _ _ _ _ UI) as WP. destruct PL as [F ND LD]. pose proof (built_cut _ _ _ _ B F) as C.
  split; [specialize (C czero (zget_In _ _ _ F)); unfold cnorm2 in C; cbn in C; exact C|]. intros e He. apply C. destruct (spec i) as [rows|rows]; cbn [builtFrom positions] in *.
  - destruct B as [WR [bas B]]. destruct (builtPlain_spec _ _ _ _ _ WP B) as [es PO]. destruct (In_zget _ _ He) as [j Ej]. destruct (ml_row _ _ _ _ _ _ PO j e Ej) as (k & r & Er & Ee & EF). rewrite (en_c _ _ _ EF). apply in_map. eapply zget_In; eauto.
  - destruct B as [WR [bas B]]. destruct (builtBucket_spec _ _ _ _ _ WP WR B) as [es PO]. destruct (bml_row _ _ _ _ _ _ PO e He) as (r & Hr & EF). rewrite (eb_c _ _ _ EF). apply in_map. exact Hr.
Qed.

Theorem room : roomyStart L cf it.
Proof using All.
  intros _. split; [exact NUM|]. intros cf1 it2 E1 E2. destruct (start_pre ranks (fun _ => 0) L cf it cf1 it2 WI E1 E2) as [MR _]. intros x i p2 Hx (p2' & Ep2' & Hb2) Ep2. assert (p2' = p2) by congruence. subst p2'. rewrite MR.
  assert (HQ : exists p, zget (in_procs it) i = Some p /\ expandProcess L cf1 (clearSites p) = Some p2).
  { pose proof Ep2 as X. unfold updateProcessMatchLists in E2. change (in_wild (clearMatching it)) with (in_wild it) in E2. rewrite HWI in E2. ob E2 as ps Eps. injection E2 as <-. unfold clearMatching in Eps, X. cbn [set_procs in_procs] in Eps, X. rewrite (omap_zget _ _ _ i Eps), zget_map in X.
    destruct (zget (in_procs it) i) as [p|]; [|discriminate]. cbn [option_map Base.obind] in X. eauto. }
  destruct HQ as (p & Ep & HQ).
  destruct (PLA i p Ep) as (b & Eb & PL). pose proof (user_regular _ _ _ _ _ _ _ UI GI _ _ _ Ep Eb PL) as RG. destruct (rg_basis _ _ _ _ _ RG) as (b' & Eb' & Hb & _). assert (b' = b) by congruence. subst b'.
  destruct (spec_cut i p b Ep Eb PL) as [C0 CM]. pose proof (wi_lat _ _ _ _ WI) as WF.
  assert (HE : pr_cut2 p2 = pr_cut2 p /\ pr_basis p2 = [b] /\ (length (pr_ml p2) <= length (filter (within (pr_cut2 p)) (match scratchGeo L R (cf_coords cf) x with Some g => g | None => [] end)))%nat).
  { destruct (init_at ranks L cf it spec UI cf1 x E1 Hx) as (g & A1 & A2 & A3). rewrite A1.
    assert (Hbx : forall bb, bb = b -> In (basisSiteFromIndex L x) [bb] -> basisSiteFromIndex L x = b) by (intros bb -> [H|[]]; congruence).
    destruct (central ranks L cf it spec UI b Hb) as [Hx0 Hb0]. set (x0 := globalIndex L (Z.quot (lt_ra L) 2) (Z.quot (lt_rb L) 2) (Z.quot (lt_rc L) 2) b) in *.
    destruct (init_at ranks L cf it spec UI cf1 x0 E1 Hx0) as (g0 & B1 & B2 & B3). pose proof (sorted_at x0 b g0 Hx0 Hb0 Hb B1) as SG0.
    assert (GC : Forall (goodC (inReach L basis R b)) (map (withTypes (cf_types cf)) g0)).
    { pose proof (sg_good _ _ _ _ _ SG0) as G. rewrite Hb0 in G. clear -G. induction G as [|c g G1 G IH]; [constructor|]. cbn [map]. constructor; [exact G1|exact IH]. }
    assert (MC : map ce_c (map (withTypes (cf_types cf)) g0) = map ce_c g0) by (rewrite map_map; reflexivity).
    assert (LE : (length (fst (insertWildcards (lt_unit L) (pr_ml p) (map (withTypes (cf_types cf)) g0) 0)) <= length (filter (within (pr_cut2 p)) (map (withTypes (cf_types cf)) g0)))%nat).
    { apply (insert_within (lt_unit L) (inReach L basis R b)).
      - destruct WF. pose proof (gi_unit _ _ _ _ _ GI). lia.
      - apply (gi_clean _ _ _ _ _ GI). exact Hb.
      - exact GC.
      - exact (regular_good L basis R W p RG b Eb).
      - rewrite MC. apply SG0.
      - exact (regular_csorted L WF basis R (gi_unit _ _ _ _ _ GI) W p RG b Eb (gi_clean _ _ _ _ _ GI b Hb)).
      - intros e He. rewrite MC. apply (sg_reach _ _ _ _ _ SG0). rewrite Hb0. exact (regular_reach L basis R W p RG b Eb e He).
      - exact CM. }
    unfold expandProcess in HQ. change (pr_basis (clearSites p)) with (pr_basis p) in HQ. change (pr_ml (clearSites p)) with (pr_ml p) in HQ. rewrite Eb in HQ. cbv zeta in HQ. rewrite indicesFromCell_get in HQ by exact Hb. cbn [Base.obind] in HQ. fold x0 in HQ. rewrite B2 in HQ. cbn [Base.obind] in HQ.
      destruct (insertWildcards (lt_unit L) (pr_ml p) (map (withTypes (cf_types cf)) g0) 0) as [l m]. ob HQ as idm Eid. injection HQ as <-. cbn [set_ml pr_cut2 pr_basis pr_ml clearSites fst] in *. split; [reflexivity|]. split; [exact Eb|].
      assert (HX : basisSiteFromIndex L x = b) by (apply (Hbx b eq_refl); rewrite <- Eb; exact Hb2). pose proof (sorted_at x b g Hx HX Hb A1) as SG.
      rewrite (within_same _ _ (pr_cut2 p) _ _ GC (sg_good _ _ _ _ _ SG)) in LE; [exact LE|]. rewrite MC. eapply sortedGeo_same; eauto. congruence. }
  destruct HE as (EC & EB & LE). rewrite EB in Hb2. destruct Hb2 as [Hb2|[]]. symmetry in Hb2.
  pose proof (maxRange_pos it) as RP. assert (FC : cf_coords cf1 = cf_coords cf /\ cf_types cf1 = cf_types cf).
  { destruct (initMatchLists_fields _ _ _ _ E1) as (mls & n & _ & _ & ->). split; reflexivity. }
  destruct FC as [FC FT]. destruct (scratch_eq L R cf1 x WF) as (g & A1 & A2 & A3 & A4); [lia|rewrite FC; apply WI|rewrite FT; apply WI|exact Hx|]. rewrite A3, A4, FT. rewrite FC in A1. rewrite A1 in LE.
  pose proof (sorted_at x b g Hx Hb2 Hb A1) as SG. destruct (FAR i p b Ep Eb) as (v & Hv & Hlt). rewrite EC.
  pose proof (split_within _ (pr_cut2 p) g (sg_good _ _ _ _ _ SG) (sg_sorted _ _ _ _ _ SG)) as SP. pose proof (sg_good _ _ _ _ _ SG) as GD. rewrite Forall_forall in GD.
  destruct (filter (fun c => negb (within (pr_cut2 p) c)) g) as [|far rest] eqn:EF.
  { exfalso. rewrite <- Hb2 in Hv. apply (sg_reach _ _ _ _ _ SG) in Hv. apply in_map_iff in Hv. destruct Hv as (c & Hc & Hin). assert (X : In c (filter (fun c => negb (within (pr_cut2 p) c)) g)); [|rewrite EF in X; exact X].
    apply filter_In. split; [exact Hin|]. unfold within. destruct (GD c Hin) as [D _]. rewrite D, Hc. apply negb_true_iff, Z.leb_gt. exact Hlt. }
  exists (map (withTypes (cf_types cf)) (filter (within (pr_cut2 p)) g)), (withTypes (cf_types cf) far), (map (withTypes (cf_types cf)) rest).
  split; [f_equal; rewrite SP at 1; rewrite map_app; reflexivity|]. split.
  { pose proof (positions_reach ranks L basis W cf it spec UI GI i p b Ep PL czero (zget_In _ _ _ (pl_first _ _ _ _ _ PL))) as Z0. rewrite <- Hb2 in Z0. apply (sg_reach _ _ _ _ _ SG) in Z0. apply in_map_iff in Z0. destruct Z0 as (c & Hc & Hin).
    assert (X : In c (filter (within (pr_cut2 p)) g)) by (apply filter_In; split; [exact Hin|]; unfold within; destruct (GD c Hin) as [D _]; rewrite D, Hc; apply Z.leb_le; exact C0).
    intros E. apply map_eq_nil in E. rewrite E in X. exact X. }
  split; [rewrite zlen_map; unfold zlen; lia|]. split.
  - intros e He. apply in_map_iff in He. destruct He as (c & <- & Hc). apply filter_In in Hc. destruct Hc as [_ Hc]. cbn [withTypes ce_d2]. apply Z.leb_le. exact Hc.
  - assert (X : In far (filter (fun c => negb (within (pr_cut2 p) c)) g)) by (rewrite EF; left; reflexivity). apply filter_In in X. destruct X as [_ X]. apply negb_true_iff, Z.leb_gt in X. exact X.
Qed.
End Room.
