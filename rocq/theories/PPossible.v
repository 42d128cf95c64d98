(** On uniform lattices the padded match lists decide exactly whether an event is possible. *)
From Coq Require Import Sorted.
From Verif Require Import PBase SModel SGeo PLattice PProcess PMpi PRateTable PMatcher PPerform PStep PGeo.
Open Scope Z_scope.
Open Scope list_scope.

(** ** matching of entries *)
Lemma bmatch_loop_contains a : forall b, zlen a = zlen b ->
  (bmatch_loop a b = true <-> forall t n m, zget a t = Some n -> zget b t = Some m -> n <= m).
Proof.
  induction a as [|x a IH]; intros b Hl; destruct b as [|y b]; cbn [bmatch_loop].
  2: { rewrite zlen_cons in Hl. pose proof (zlen_nonneg b). change (zlen (@nil Z)) with 0 in Hl. lia. }
  2: { rewrite zlen_cons in Hl. pose proof (zlen_nonneg a). change (zlen (@nil Z)) with 0 in Hl. lia. }
  - split; [|reflexivity]. intros _ t n m. rewrite zget_nil. discriminate.
  - rewrite !zlen_cons in Hl. assert (Hl' : zlen a = zlen b) by lia. specialize (IH b Hl').
    destruct (Z.ltb_spec y x) as [H|H].
    + split; [discriminate|]. intros HH. specialize (HH 0 x y). rewrite !zget_cons in HH. cbn in HH. specialize (HH eq_refl eq_refl). lia.
    + rewrite IH. split; intros HH t n m.
      * rewrite !zget_cons. destruct (Z.eqb_spec t 0); [congruence|]. apply HH.
      * intros E1 E2. apply (HH (t + 1)); rewrite zget_cons; (destruct (Z.eqb_spec (t + 1) 0); [apply zget_range in E1; lia|]);
        replace (t + 1 - 1) with t by lia; assumption.
Qed.
Lemma bmatch_contains need have : bmatch need have = Some true <-> contains have need.
Proof.
  unfold bmatch, contains. destruct (Z.eqb_spec (zlen need) (zlen have)) as [E|E].
  - rewrite <- (bmatch_loop_contains need have E). split; [intros H; inversion H; auto|intros [_ ->]; reflexivity].
  - split; [discriminate|]. intros [H _]. congruence.
Qed.

Lemma peMatch_true S e c : peMatch S e c = Some true <->
  wildEntry e \/ (~ wildEntry e /\ pe_match e <> [] /\ contains (ce_types c) (pe_match e) /\
                  samePoint S (pe_d2 e) (pe_c e) (ce_d2 c) (ce_c c) = true).
Proof.
  unfold peMatch, wildEntry, bget. destruct (zget (pe_match e) 0) as [w|] eqn:Ew; cbn [obind].
  - destruct (Z.eqb_spec w 1) as [->|N]; [split; auto|].
    assert (pe_match e <> []) by (intros H; rewrite H in Ew; discriminate).
    assert (Some w <> Some 1) by congruence.
    rewrite <- bmatch_contains. destruct (bmatch (pe_match e) (ce_types c)) as [[]|]; cbn [obind].
    + split; [intros H1; inversion H1; auto|intros [H1|(_ & _ & _ & ->)]; [congruence|reflexivity]].
    + split; [discriminate|intros [H1|(_ & _ & H1 & _)]; congruence].
    + split; [discriminate|intros [H1|(_ & _ & H1 & _)]; congruence].
  - split; [discriminate|]. intros [H|(_ & H & _)]; [discriminate|]. destruct (pe_match e) as [|w l]; [congruence|].
    rewrite zget_cons in Ew. discriminate.
Qed.

Lemma match_loop_true S l : forall cl, match_loop S l cl = Some true <->
  (length l <= length cl)%nat /\ forall i e c, zget l i = Some e -> zget cl i = Some c -> peMatch S e c = Some true.
Proof.
  induction l as [|e l IH]; intros cl; cbn [match_loop].
  - split; [|reflexivity]. intros _. split; [cbn; lia|]. intros i e c. rewrite zget_nil. discriminate.
  - destruct cl as [|c cl].
    + split; [discriminate|]. cbn [length]. intros [H _]. lia.
    + destruct (peMatch S e c) as [[]|] eqn:E; cbn [obind].
      * rewrite IH. cbn [length]. split; intros [H1 H2]; (split; [lia|]); intros i e' c'.
        -- rewrite !zget_cons. destruct (Z.eqb_spec i 0); [intros A B; inversion A; inversion B; subst; exact E|apply H2].
        -- intros A B. apply (H2 (i + 1)); rewrite zget_cons; (destruct (Z.eqb_spec (i + 1) 0); [apply zget_range in A; lia|]);
           replace (i + 1 - 1) with i by lia; assumption.
      * split; [discriminate|]. intros [_ H]. specialize (H 0 e c). rewrite !zget_cons in H. cbn in H. specialize (H eq_refl eq_refl). congruence.
      * split; [discriminate|]. intros [_ H]. specialize (H 0 e c). rewrite !zget_cons in H. cbn in H. specialize (H eq_refl eq_refl). congruence.
Qed.
Lemma whatever_true S l cl : whateverMatch S l cl = Some true <->
  (length l <= length cl)%nat /\ forall i e c, zget l i = Some e -> zget cl i = Some c -> peMatch S e c = Some true.
Proof.
  unfold whateverMatch. destruct (Z.ltb_spec (zlen cl) (zlen l)) as [H|H].
  - split; [discriminate|]. unfold zlen in H. intros [H1 _]. lia.
  - apply match_loop_true.
Qed.

Lemma Forall2_len_local {A B} (P : A -> B -> Prop) l m : Forall2 P l m -> length l = length m.
Proof. induction 1; cbn [length]; congruence. Qed.
Lemma Forall2_zget {A B} (P : A -> B -> Prop) l m i a b : Forall2 P l m -> zget l i = Some a -> zget m i = Some b -> P a b.
Proof.
  intros H. revert i. induction H; intros i; rewrite ?zget_nil; [discriminate|]. rewrite !zget_cons.
  destruct (i =? 0); [intros E1 E2; inversion E1; inversion E2; subst; auto|apply IHForall2].
Qed.
Lemma zget_firstn_some {A} (l : list A) n i a : zget l i = Some a -> i < Z.of_nat n -> zget (firstn n l) i = Some a.
Proof.
  revert n i. induction l as [|b l IH]; intros n i; [rewrite zget_nil; discriminate|].
  rewrite zget_cons. intros E Hn. destruct n as [|n].
  - destruct (Z.eqb_spec i 0); [lia|]. apply zget_range in E. lia.
  - rewrite firstn_cons, zget_cons. destruct (Z.eqb_spec i 0); [exact E|]. apply IH; [exact E|lia].
Qed.
Lemma zget_firstn_inv {A} (l : list A) n i a : zget (firstn n l) i = Some a -> zget l i = Some a.
Proof.
  revert n i. induction l as [|b l IH]; intros [|n] i; rewrite ?firstn_nil, ?firstn_O, ?zget_nil; try discriminate.
  rewrite firstn_cons, !zget_cons. destruct (i =? 0); auto. apply IH.
Qed.

(** ** padded lists stay aligned at every site with the same basis position *)
Record alignedAt (pl l : list pentry) (m : list Z) (cl : list centry) : Prop := {
  al_len : (length l <= length cl)%nat;
  al_entry : forall i e c, zget l i = Some e -> zget cl i = Some c ->
     (In e pl /\ pe_c e = ce_c c) \/ exists c0, e = initWildcard c0 /\ ce_types c0 <> [] /\ ~ In (ce_c c) (map pe_c pl);
  al_orig : forall j e, zget pl j = Some e -> exists i c, zget m j = Some i /\ zget l i = Some e /\ zget cl i = Some c /\ ce_c c = pe_c e;
  al_mlen : length m = length pl }.

Lemma geom_c l : map (fun g : Z * Z * coord => snd g) (geom l) = map ce_c l.
Proof. unfold geom. rewrite map_map. reflexivity. Qed.
Lemma geom_eq_c l l' : geom l = geom l' -> map ce_c l = map ce_c l'.
Proof. intros H. rewrite <- !geom_c, H. reflexivity. Qed.
Lemma geom_len l : length (geom l) = length l.
Proof. apply map_length. Qed.
Lemma geom_entry l l' i c : geom l = geom l' -> zget l i = Some c -> exists c', zget l' i = Some c' /\
  ce_index c' = ce_index c /\ ce_d2 c' = ce_d2 c /\ ce_c c' = ce_c c.
Proof.
  intros H E. assert (E2 : zget (geom l') i = Some (ce_index c, ce_d2 c, ce_c c)) by (rewrite <- H; unfold geom; rewrite zget_map, E; reflexivity).
  unfold geom in E2. rewrite zget_map in E2. destruct (zget l' i) as [c'|]; [|discriminate]. exists c'. simpl in E2. inversion E2. auto.
Qed.
Lemma map_eq_zget {A B} (f : A -> B) l l' i a : map f l = map f l' -> zget l i = Some a -> exists a', zget l' i = Some a' /\ f a' = f a.
Proof.
  intros H E. assert (E2 : zget (map f l') i = Some (f a)) by (rewrite <- H, zget_map, E; reflexivity).
  rewrite zget_map in E2. destruct (zget l' i) as [a'|]; [|discriminate]. exists a'. simpl in E2. inversion E2. auto.
Qed.

Section AlignAt.
Context (L : lattice) (WF : wf_lattice L) (basis : list coord) (WB : wf_basis L basis).
Context (R : Z) (HR : 0 <= R) (HU : uniform L R) (HS : lt_unit L < 100000).
Notation coords := (generateLatticeSites L basis).
Context (W : Z) (p : process) (RG : regular L basis R W p) (b : Z) (Hb : pr_basis p = [b]) (HC : cleanAt L basis R b).

Lemma regular_reach e : In e (pr_ml p) -> inReach L basis R b (pe_c e).
Proof using RG Hb. intros He. destruct (rg_basis _ _ _ _ _ RG) as (b' & E & _ & H). assert (b' = b) by congruence. subst. auto. Qed.
Lemma regular_good : Forall (goodP (inReach L basis R b)) (pr_ml p).
Proof using RG Hb. apply Forall_forall. intros e He. split; [eapply rg_d2; eauto|apply regular_reach; auto]. Qed.
Lemma regular_csorted : csorted (map pe_c (pr_ml p)).
Proof using WF RG Hb HC HS.
  pose proof regular_good as HG. rewrite Forall_forall in HG.
  assert (HL : forall a c, goodP (inReach L basis R b) a -> goodP (inReach L basis R b) c -> peLt (lt_unit L) a c = clt (pe_c a) (pe_c c)).
  { intros a c [A1 A2] [B1 B2]. unfold peLt. rewrite A1, B1. apply (pointLt_clean (lt_unit L) ltac:(destruct WF; lia) _ HC); auto. }
  apply sorted_clt; [|apply RG]. apply sorted_map.
  assert (HSt : StronglySorted (nlt (peLt (lt_unit L))) (pr_ml p)).
  { rewrite (rg_sorted _ _ _ _ _ RG). apply isort_sorted with (D := goodP (inReach L basis R b)).
    - intros x y Hx Hy. rewrite !HL by auto. apply clt_asym.
    - intros x y z Hx Hy Hz. unfold nlt. rewrite !HL by auto. intros H1 H2. eapply cltn_trans; eauto.
    - apply Forall_forall. exact HG. }
  eapply sorted_impl_In; [|exact HSt]. intros a c Ha Hc. unfold nlt. rewrite HL by auto. auto.
Qed.

Context (x0 : Z) (Hx0 : 0 <= x0 < nsites L) (Hbx0 : basisSiteFromIndex L x0 = b) (g0 cl0 : list centry).
Context (Hg0 : sortedGeo L basis R x0 g0) (Hcl0 : geom cl0 = geom g0) (Ht0 : forall c, In c cl0 -> ce_types c <> []).
Notation l := (fst (insertWildcards (lt_unit L) (pr_ml p) cl0 0)).
Notation m := (snd (insertWildcards (lt_unit L) (pr_ml p) cl0 0)).

Lemma aligned_at x g cl : basisSiteFromIndex L x = b -> sortedGeo L basis R x g -> geom cl = geom g -> alignedAt (pr_ml p) l m cl.
Proof using All.
  intros Hbx Hg Hcl.
  assert (Ecc : map ce_c cl = map ce_c cl0).
  { rewrite (geom_eq_c _ _ Hcl), (geom_eq_c _ _ Hcl0). eapply sortedGeo_same; eauto. congruence. }
  assert (Good : Forall (goodC (inReach L basis R b)) cl0).
  { apply Forall_forall. intros c Hc. apply In_zget in Hc. destruct Hc as [i Ei].
    destruct (geom_entry _ _ _ _ Hcl0 Ei) as (c' & Ec' & _ & E2 & E3). apply zget_In in Ec'.
    pose proof (sg_good _ _ _ _ _ Hg0) as HG. rewrite Forall_forall in HG. destruct (HG c' Ec') as [G1 G2].
    split; [congruence|]. rewrite <- Hbx0, <- E3. exact G2. }
  destruct (insert_aligned (lt_unit L) ltac:(destruct WF; lia) (inReach L basis R b) HC cl0 (pr_ml p) 0 Good regular_good) as ((k & A1) & A2 & A3).
  - rewrite (geom_eq_c _ _ Hcl0). apply Hg0.
  - apply regular_csorted.
  - intros e He. rewrite (geom_eq_c _ _ Hcl0). apply Hg0. rewrite Hbx0. apply regular_reach; auto.
  - assert (Hlen : length cl = length cl0) by (rewrite <- (map_length ce_c cl), Ecc, map_length; reflexivity).
    assert (Hlk : length l = length (firstn k cl0)) by (eapply Forall2_len_local; eauto).
    rewrite firstn_length in Hlk.
    constructor.
    + lia.
    + intros i e c Ei Ec. destruct (map_eq_zget _ _ _ _ _ Ecc Ec) as (c0 & Ec0 & E3).
      assert (E4 : zget (firstn k cl0) i = Some c0).
      { apply zget_firstn_some; [exact Ec0|]. apply zget_range in Ei. unfold zlen in Ei. lia. }
      pose proof (Forall2_zget _ _ _ _ _ _ A1 Ei E4) as [[B1 B2]|[B1 B2]].
      * left. split; [exact B1|congruence].
      * right. exists c0. split; [exact B1|]. split; [apply Ht0; eapply zget_In; eauto|congruence].
    + intros j e Ej. destruct (A3 j e Ej) as (i & B1 & B2 & B3). rewrite Z.sub_0_r in B3.
      assert (Hr : 0 <= i < zlen cl) by (apply zget_range in B3; unfold zlen in *; lia).
      destruct (zget_lt cl i Hr) as [c Ec]. exists i, c. split; [exact B1|]. split; [exact B3|]. split; [exact Ec|].
      destruct (map_eq_zget _ _ _ _ _ Ecc Ec) as (c0 & Ec0 & E3).
      assert (E4 : zget (firstn k cl0) i = Some c0).
      { apply zget_firstn_some; [exact Ec0|]. apply zget_range in B3. unfold zlen in B3. lia. }
      pose proof (Forall2_zget _ _ _ _ _ _ A1 B3 E4) as [[C1 C2]|[C1 C2]]; [congruence|]. exfalso.
      apply C2. assert (pe_c e = ce_c c0) by (rewrite C1; reflexivity). rewrite <- H. apply in_map. eapply zget_In; eauto.
    + exact A2.
Qed.
End AlignAt.

(** ** aligned lists decide whether the event is possible *)
Lemma aligned_match L basis R W p b l m cl x g types : wf_lattice L -> wf_basis L basis ->
  regular L basis R W p -> 1 <= W -> pr_basis p = [b] ->
  alignedAt (pr_ml p) l m cl -> sortedGeo L basis R x g -> geom cl = geom g -> basisSiteFromIndex L x = b ->
  (forall c, In c cl -> zget types (ce_index c) = Some (ce_types c)) ->
  (whateverMatch (lt_unit L) l cl = Some true <-> possible L (generateLatticeSites L basis) types p x).
Proof.
  intros WF WB RG HW Hb AL Hg Hcl Hbx Hty.
  assert (Hd2 : forall c, In c cl -> ce_d2 c = cnorm2 (ce_c c) /\ siteAt L (generateLatticeSites L basis) x (ce_c c) (ce_index c)).
  { intros c Hc. apply In_zget in Hc. destruct Hc as [i Ei]. destruct (geom_entry _ _ _ _ Hcl Ei) as (c' & Ec' & E1 & E2 & E3).
    apply zget_In in Ec'. pose proof (sg_good _ _ _ _ _ Hg) as HG. rewrite Forall_forall in HG. destruct (HG c' Ec') as [G1 G2].
    split; [congruence|]. rewrite <- E1, <- E3. apply Hg. exact Ec'. }
  rewrite whatever_true. split.
  - intros [_ H]. split; [rewrite Hb, Hbx; left; reflexivity|]. intros e He. apply In_zget in He. destruct He as [j Ej].
    destruct (al_orig _ _ _ _ AL j e Ej) as (i & c & E1 & E2 & E3 & E4). specialize (H i e c E2 E3).
    apply peMatch_true in H. destruct H as [H|(_ & _ & H & _)]; [left; exact H|right].
    pose proof (zget_In _ _ _ E3) as Hc. exists (ce_index c), (ce_types c). split; [rewrite <- E4; apply Hd2; exact Hc|]. split; [apply Hty; exact Hc|exact H].
  - intros [_ H]. split; [apply AL|]. intros i e c Ei Ec. apply peMatch_true.
    pose proof (zget_In _ _ _ Ec) as Hc. destruct (al_entry _ _ _ _ AL i e c Ei Ec) as [[H1 H2]|(c0 & H1 & H2 & _)].
    + destruct (Z.eq_dec 1 (match zget (pe_match e) 0 with Some w => w | None => 0 end)) as [Ew|Ew].
      * left. unfold wildEntry. destruct (zget (pe_match e) 0); [congruence|discriminate].
      * assert (NW : ~ wildEntry e) by (unfold wildEntry; intros E; rewrite E in Ew; congruence). right. split; [exact NW|].
        destruct (H e H1) as [H3|(y & t & H3 & H4 & H5)]; [contradiction|].
        split; [intros E; pose proof (rg_width _ _ _ _ _ RG e H1) as [E2 _]; rewrite E in E2; change (zlen (@nil Z)) with 0 in E2; lia|].
        destruct (Hd2 c Hc) as [D1 D2]. rewrite <- H2 in D2.
        assert (y = ce_index c) by (eapply siteAt_unique; eauto). subst y. rewrite (Hty c Hc) in H4. inversion H4; subst t.
        split; [exact H5|]. rewrite D1, (rg_d2 _ _ _ _ _ RG e H1), H2. apply samePoint_refl. destruct WF; lia.
    + left. rewrite H1. apply wild_init. exact H2.
Qed.
