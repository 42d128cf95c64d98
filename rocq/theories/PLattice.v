(** Proofs about MLattice.v: numbering, neighbourhoods, wrapping. *)
From Verif Require Import Base MLattice SLattice PBase.
From Coq Require Import Sorted.
Open Scope Z_scope.

Section Lattice.
Context (L : lattice) (WF : wf_lattice L).

Lemma truncEps_div num den : 1 <= num -> 1 <= den -> truncEps num den = (num - 1) / den.
Proof.
  intros Hn Hd. unfold truncEps. rewrite Z.quot_div_nonneg by lia.
  symmetry. apply Z.div_unique_pos with (r := 1000000000 * ((num - 1) mod den + 1) - 1).
  - pose proof (Z.mod_pos_bound (num - 1) den). lia.
  - pose proof (Z.div_mod (num - 1) den). nia.
Qed.

Lemma globalIndex_cellBase i j k b : globalIndex L i j k b = cellBase L i j k + b.
Proof. unfold globalIndex, cellBase. ring. Qed.

Lemma indicesFromCell_get i j k b :
  0 <= b < lt_nb L -> zget (indicesFromCell L i j k) b = Some (globalIndex L i j k b).
Proof.
  intros H. unfold indicesFromCell. rewrite zget_map, zget_zrange by lia. simpl.
  rewrite globalIndex_cellBase. f_equal; lia.
Qed.

Lemma In_indicesFromCell y i j k :
  In y (indicesFromCell L i j k) <-> exists b, 0 <= b < lt_nb L /\ y = globalIndex L i j k b.
Proof.
  unfold indicesFromCell. rewrite in_map_iff. split.
  - intros (b & <- & Hb). apply In_zrange in Hb. exists b. rewrite globalIndex_cellBase. split; lia.
  - intros (b & Hb & ->). exists b. rewrite In_zrange, globalIndex_cellBase. split; lia.
Qed.

(** cell number of a site *)
Definition cellNo i j k := (i * lt_rb L + j) * lt_rc L + k.

Lemma globalIndex_cellNo i j k b : globalIndex L i j k b = cellNo i j k * lt_nb L + b.
Proof. unfold globalIndex, cellNo. ring. Qed.

Lemma cellNo_range i j k b : isSite L i j k b -> 0 <= cellNo i j k < lt_ra L * lt_rb L * lt_rc L.
Proof.
  intros (Hi & Hj & Hk & Hb). unfold cellNo. destruct WF. split; [nia|].
  assert (i * lt_rb L + j <= lt_ra L * lt_rb L - 1) by nia. nia.
Qed.

Lemma globalIndex_range i j k b : isSite L i j k b -> 0 <= globalIndex L i j k b < nsites L.
Proof.
  intros H. pose proof (cellNo_range _ _ _ _ H). destruct H as (_ & _ & _ & Hb).
  rewrite globalIndex_cellNo. unfold nsites. destruct WF.
  set (c := cellNo i j k) in *. set (m := lt_ra L * lt_rb L * lt_rc L) in *.
  split; [nia|]. assert (c <= m - 1) by lia. nia.
Qed.

Lemma indexToCell_global i j k b : isSite L i j k b -> indexToCell L (globalIndex L i j k b) = (i, j, k).
Proof.
  intros H. pose proof (cellNo_range _ _ _ _ H) as HR. destruct H as (Hi & Hj & Hk & Hb).
  destruct WF. unfold indexToCell.
  assert (Hc : Z.quot (globalIndex L i j k b) (lt_nb L) = cellNo i j k).
  { rewrite globalIndex_cellNo. rewrite Z.quot_div_nonneg by nia.
    symmetry. apply Z.div_unique_pos with b; lia. }
  rewrite Hc. clear Hc.
  assert (Hii : truncEps (cellNo i j k + 1) (lt_rb L * lt_rc L) = i).
  { rewrite truncEps_div by nia. symmetry.
    apply Z.div_unique_pos with (r := j * lt_rc L + k); [|unfold cellNo; ring_simplify; ring].
    split; [nia|]. assert (j <= lt_rb L - 1) by lia. nia. }
  rewrite Hii.
  assert (Hjj : truncEps (cellNo i j k + 1 - i * (lt_rb L * lt_rc L)) (lt_rc L) = j).
  { rewrite truncEps_div by (unfold cellNo; nia). symmetry.
    apply Z.div_unique_pos with (r := k); [lia|]. unfold cellNo; ring. }
  rewrite Hjj.
  assert (Hkk : truncEps (cellNo i j k + 1 - (i * (lt_rb L * lt_rc L) + j * lt_rc L)) 1 = k).
  { rewrite truncEps_div by (unfold cellNo; nia). rewrite Z.div_1_r. unfold cellNo; ring. }
  rewrite Hkk. reflexivity.
Qed.

Lemma basis_global i j k b : isSite L i j k b -> basisSiteFromIndex L (globalIndex L i j k b) = b.
Proof.
  intros H. pose proof (cellNo_range _ _ _ _ H). destruct H as (Hi & Hj & Hk & Hb). destruct WF.
  unfold basisSiteFromIndex. rewrite globalIndex_cellNo. rewrite Z.rem_mod_nonneg by nia.
  symmetry. apply Z.mod_unique_pos with (cellNo i j k); lia.
Qed.

Lemma site_of_index x : 0 <= x < nsites L ->
  exists i j k b, isSite L i j k b /\ x = globalIndex L i j k b.
Proof.
  intros Hx. destruct WF. unfold nsites in Hx.
  set (c := x / lt_nb L). set (r := lt_rb L * lt_rc L).
  assert (Hr : 0 < r) by (unfold r; nia).
  pose proof (Z.div_mod x (lt_nb L)). pose proof (Z.mod_pos_bound x (lt_nb L)).
  assert (Hc : 0 <= c < lt_ra L * r).
  { unfold c, r. split; [apply Z.div_pos; lia|]. apply Z.div_lt_upper_bound; nia. }
  pose proof (Z.div_mod c r). pose proof (Z.mod_pos_bound c r).
  pose proof (Z.div_mod (c mod r) (lt_rc L)). pose proof (Z.mod_pos_bound (c mod r) (lt_rc L)).
  exists (c / r), ((c mod r) / lt_rc L), ((c mod r) mod lt_rc L), (x mod lt_nb L).
  split.
  - repeat split; try lia.
    + apply Z.div_pos; lia.
    + apply Z.div_lt_upper_bound; [lia|nia].
    + apply Z.div_pos; lia.
    + apply Z.div_lt_upper_bound; [lia|]. fold r. unfold r in *. lia.
  - rewrite globalIndex_cellNo. unfold cellNo. unfold r in *. unfold c in *. nia.
Qed.

Lemma globalIndex_inj i j k b i' j' k' b' :
  isSite L i j k b -> isSite L i' j' k' b' ->
  globalIndex L i j k b = globalIndex L i' j' k' b' -> i = i' /\ j = j' /\ k = k' /\ b = b'.
Proof.
  intros H H' E.
  pose proof (indexToCell_global _ _ _ _ H) as E1. pose proof (indexToCell_global _ _ _ _ H') as E2.
  pose proof (basis_global _ _ _ _ H) as E3. pose proof (basis_global _ _ _ _ H') as E4.
  rewrite E in E1, E3. rewrite E1 in E2. injection E2 as Ei Ej Ek. repeat split; congruence.
Qed.

(** ** Neighbourhoods *)
Lemma In_axisCells p rep c R y :
  0 < rep -> 0 <= c < rep -> 0 <= R ->
  In y (axisCells p rep c R) <-> (0 <= y < rep /\ axisNear p rep R c y).
Proof.
  intros Hr Hc HR. unfold axisCells. rewrite filter_In, in_map_iff. unfold inCell.
  unfold axisNear, wrapCell. split.
  - intros ((t & Et & Ht) & Hy). apply In_zrange in Ht. split; [lia|]. destruct p.
    + destruct (Z.ltb_spec t 0); [exists (-1); lia|]. destruct (Z.leb_spec rep t); [exists 1; lia|exists 0; lia].
    + lia.
  - intros (Hy & Hn). split; [|lia]. destruct p.
    + destruct Hn as [n Hn].
      assert (exists m, -1 <= m <= 1 /\ Z.abs (y + m * rep - c) <= R) as (m & Hm & Hmn).
      { destruct (Z_le_dec (-1) n); [destruct (Z_le_dec n 1)|].
        - exists n; lia.
        - exists 1. split; [lia|]. nia.
        - exists (-1). split; [lia|]. nia. }
      exists (y + m * rep). split; [|apply In_zrange; lia].
      assert (m = -1 \/ m = 0 \/ m = 1) as [->|[->| ->]] by lia.
      * destruct (Z.ltb_spec (y + -1 * rep) 0); lia.
      * destruct (Z.ltb_spec (y + 0 * rep) 0); [lia|]. destruct (Z.leb_spec rep (y + 0 * rep)); lia.
      * destruct (Z.ltb_spec (y + 1 * rep) 0); [lia|]. destruct (Z.leb_spec rep (y + 1 * rep)); lia.
    + exists y. split; [reflexivity|apply In_zrange; lia].
Qed.

Lemma axisNear_sym p rep R a b : axisNear p rep R a b <-> axisNear p rep R b a.
Proof.
  unfold axisNear. destruct p; [|lia].
  split; intros [n Hn]; exists (-n); lia.
Qed.

Lemma In_neighbourIndices i j k b R y :
  isSite L i j k b -> 0 <= R ->
  In y (neighbourIndices L (globalIndex L i j k b) R) <->
  exists i' j' k' b', isSite L i' j' k' b' /\ y = globalIndex L i' j' k' b' /\
    axisNear (lt_pa L) (lt_ra L) R i i' /\
    axisNear (lt_pb L) (lt_rb L) R j j' /\
    axisNear (lt_pc L) (lt_rc L) R k k'.
Proof.
  intros H HR. unfold neighbourIndices. rewrite indexToCell_global by exact H.
  destruct H as (Hi & Hj & Hk & Hb). destruct WF. split.
  - intros Hin. apply in_flat_map in Hin. destruct Hin as (i' & Hi' & Hin).
    apply in_flat_map in Hin. destruct Hin as (j' & Hj' & Hin).
    apply in_flat_map in Hin. destruct Hin as (k' & Hk' & Hin).
    apply In_indicesFromCell in Hin. destruct Hin as (b' & Hb' & ->).
    apply In_axisCells in Hi', Hj', Hk'; try lia.
    exists i', j', k', b'. unfold isSite. tauto.
  - intros (i' & j' & k' & b' & (Hi' & Hj' & Hk' & Hb') & -> & Ni & Nj & Nk).
    apply in_flat_map. exists i'. split; [apply In_axisCells; auto; lia|].
    apply in_flat_map. exists j'. split; [apply In_axisCells; auto; lia|].
    apply in_flat_map. exists k'. split; [apply In_axisCells; auto; lia|].
    apply In_indicesFromCell. eauto.
Qed.

Lemma neighbour_spec x R y : 0 <= x < nsites L -> 0 <= R ->
  In y (neighbourIndices L x R) <-> nearSites L R x y.
Proof.
  intros Hx HR. destruct (site_of_index x Hx) as (i & j & k & b & H & E). rewrite E.
  rewrite In_neighbourIndices by auto. unfold nearSites. split.
  - intros (i' & j' & k' & b' & H'). exists i, j, k, b, i', j', k', b'. tauto.
  - intros (i1 & j1 & k1 & b1 & i' & j' & k' & b' & H1 & E1 & H').
    destruct (globalIndex_inj _ _ _ _ _ _ _ _ H H1 E1) as (-> & -> & -> & ->).
    exists i', j', k', b'. tauto.
Qed.

Lemma nearSites_sym R x y : nearSites L R x y <-> nearSites L R y x.
Proof.
  unfold nearSites. split; intros (i & j & k & b & i' & j' & k' & b' & H);
  exists i', j', k', b', i, j, k, b;
  rewrite (axisNear_sym _ _ _ i'), (axisNear_sym _ _ _ j'), (axisNear_sym _ _ _ k'); tauto.
Qed.

Lemma nearSites_range R x y : nearSites L R x y -> 0 <= x < nsites L /\ 0 <= y < nsites L.
Proof.
  intros (i & j & k & b & i' & j' & k' & b' & H & -> & H' & -> & _).
  split; apply globalIndex_range; auto.
Qed.

Lemma nearSites_refl R x : 0 <= R -> 0 <= x < nsites L -> nearSites L R x x.
Proof.
  intros HR Hx. destruct (site_of_index x Hx) as (i & j & k & b & H & E).
  exists i, j, k, b, i, j, k, b. repeat split; try tauto; try (apply H);
  unfold axisNear; [destruct (lt_pa L)|destruct (lt_pb L)|destruct (lt_pc L)]; try (exists 0); lia.
Qed.

Lemma neighbour_range x R y : 0 <= x < nsites L -> 0 <= R ->
  In y (neighbourIndices L x R) -> 0 <= y < nsites L.
Proof. intros Hx HR H. apply neighbour_spec in H; auto. apply nearSites_range in H; tauto. Qed.

Lemma neighbour_sym x y R : 0 <= x < nsites L -> 0 <= y < nsites L -> 0 <= R ->
  In y (neighbourIndices L x R) <-> In x (neighbourIndices L y R).
Proof. intros. rewrite !neighbour_spec by auto. apply nearSites_sym. Qed.

Lemma neighbour_self x R : 0 <= x < nsites L -> 0 <= R -> In x (neighbourIndices L x R).
Proof. intros. apply neighbour_spec; auto. apply nearSites_refl; auto. Qed.

(** no duplicates when the neighbourhood fits *)
Definition fits1 (p : bool) (rep R : Z) : Prop := p = true -> 2 * R + 1 <= rep.

Lemma NoDup_axisCells p rep c R : 0 < rep -> 0 <= c < rep -> 0 <= R -> fits1 p rep R ->
  NoDup (axisCells p rep c R).
Proof.
  intros Hr Hc HR Hf. unfold axisCells. apply NoDup_filter. apply NoDup_map_inj; [|apply NoDup_zrange].
  intros s t Hs Ht. apply In_zrange in Hs, Ht. unfold wrapCell. destruct p; [|auto].
  specialize (Hf eq_refl).
  destruct (Z.ltb_spec s 0), (Z.ltb_spec t 0); try lia;
  destruct (Z.leb_spec rep s), (Z.leb_spec rep t); lia.
Qed.

Lemma NoDup_indicesFromCell i j k : NoDup (indicesFromCell L i j k).
Proof. apply NoDup_map_inj; [|apply NoDup_zrange]. intros; lia. Qed.

Lemma neighbour_NoDup x R : 0 <= x < nsites L -> 0 <= R ->
  fits1 (lt_pa L) (lt_ra L) R -> fits1 (lt_pb L) (lt_rb L) R -> fits1 (lt_pc L) (lt_rc L) R ->
  NoDup (neighbourIndices L x R).
Proof.
  intros Hx HR Fa Fb Fc. destruct (site_of_index x Hx) as (i & j & k & b & H & ->).
  unfold neighbourIndices. rewrite indexToCell_global by exact H.
  destruct H as (Hi & Hj & Hk & Hb). destruct WF.
  assert (ND : forall i' j', NoDup (flat_map (fun kk => indicesFromCell L i' j' kk)
                                    (axisCells (lt_pc L) (lt_rc L) k R)) /\
     (0 <= i' < lt_ra L -> 0 <= j' < lt_rb L -> forall y, In y (flat_map (fun kk => indicesFromCell L i' j' kk)
                                    (axisCells (lt_pc L) (lt_rc L) k R)) ->
        exists k' b', isSite L i' j' k' b' /\ y = globalIndex L i' j' k' b')).
  { intros i' j'. split.
    - apply NoDup_flat_map.
      + apply NoDup_axisCells; auto; lia.
      + intros; apply NoDup_indicesFromCell.
      + intros k1 k2 y H1 H2 Hy1 Hy2. apply In_axisCells in H1, H2; try lia.
        apply In_indicesFromCell in Hy1, Hy2. destruct Hy1 as (b1 & Hb1 & ->), Hy2 as (b2 & Hb2 & E).
        rewrite !globalIndex_cellNo in E. unfold cellNo in E. nia.
    - intros Hi' Hj' y Hy. apply in_flat_map in Hy. destruct Hy as (k' & Hk' & Hy).
      apply In_axisCells in Hk'; try lia. apply In_indicesFromCell in Hy. destruct Hy as (b' & Hb' & ->).
      exists k', b'. unfold isSite. tauto. }
  assert (ND2 : forall i', 0 <= i' < lt_ra L -> NoDup (flat_map (fun jj => flat_map (fun kk => indicesFromCell L i' jj kk)
                                    (axisCells (lt_pc L) (lt_rc L) k R)) (axisCells (lt_pb L) (lt_rb L) j R)) /\
     (forall y, In y (flat_map (fun jj => flat_map (fun kk => indicesFromCell L i' jj kk)
                                    (axisCells (lt_pc L) (lt_rc L) k R)) (axisCells (lt_pb L) (lt_rb L) j R)) ->
        exists j' k' b', isSite L i' j' k' b' /\ y = globalIndex L i' j' k' b')).
  { intros i' Hi'. split.
    - apply NoDup_flat_map.
      + apply NoDup_axisCells; auto; lia.
      + intros j' _. apply ND.
      + intros j1 j2 y H1 H2 Hy1 Hy2. apply In_axisCells in H1, H2; try lia.
        apply ND in Hy1; try tauto. apply ND in Hy2; try tauto.
        destruct Hy1 as (k1 & b1 & S1 & ->), Hy2 as (k2 & b2 & S2 & E).
        apply globalIndex_inj in E; tauto.
    - intros y Hy. apply in_flat_map in Hy. destruct Hy as (j' & Hj' & Hy).
      apply In_axisCells in Hj'; try lia. apply ND in Hy; try tauto. destruct Hy as (k' & b' & Hy). eauto. }
  apply NoDup_flat_map.
  - apply NoDup_axisCells; auto; lia.
  - intros i' Hi'. apply In_axisCells in Hi'; try lia. apply ND2; tauto.
  - intros i1 i2 y H1 H2 Hy1 Hy2. apply In_axisCells in H1, H2; try lia.
    apply ND2 in Hy1; try tauto. apply ND2 in Hy2; try tauto.
    destruct Hy1 as (j1 & k1 & b1 & S1 & ->), Hy2 as (j2 & k2 & b2 & S2 & E).
    apply globalIndex_inj in E; tauto.
Qed.

(** ** The set of sites to rematch *)
Lemma superset_spec indices R y : Forall (fun x => 0 <= x < nsites L) indices -> 0 <= R ->
  In y (supersetNeighbourIndices L indices R) <-> exists x, In x indices /\ nearSites L R x y.
Proof.
  intros HI HR. rewrite Forall_forall in HI. unfold supersetNeighbourIndices.
  rewrite zuniq_In, isort_In, in_flat_map.
  split; intros (x & Hx & Hy); exists x; split; auto; apply neighbour_spec; auto.
Qed.
Lemma superset_sorted indices R : StronglySorted Z.lt (supersetNeighbourIndices L indices R).
Proof. apply zuniq_sorted, isort_Z_sorted. Qed.
Lemma superset_NoDup indices R : NoDup (supersetNeighbourIndices L indices R).
Proof. apply sorted_lt_NoDup, superset_sorted. Qed.

(** ** Wrapping *)
Lemma wrap1_spec S rep c : 0 < S -> 0 < rep -> Z.abs c < rep * S + rep * S / 2 ->
  (- (rep * S) <= 2 * wrap1 S rep c < rep * S) /\ sameMod true (rep * S) c (wrap1 S rep c).
Proof.
  intros HS Hr Hc. unfold wrap1, sameMod. assert (HP : 0 < rep * S) by nia. set (P := rep * S) in *. clearbody P.
  assert (2 * (P / 2) <= P) by (apply Z.mul_div_le; lia).
  destruct (Z.leb_spec P (2 * c)).
  - split; [lia|]. exists (-1); lia.
  - destruct (Z.ltb_spec (2 * c) (-P)).
    + split; [lia|]. exists 1; lia.
    + split; [lia|]. exists 0; lia.
Qed.
Lemma window_unique P a b : 0 < P -> - P <= 2 * a < P -> - P <= 2 * b < P -> sameMod true P a b -> a = b.
Proof.
  intros HP Ha Hb [n ->]. assert (n = 0) by nia. subst; lia.
Qed.
Lemma window_min P a b : 0 < P -> - P <= 2 * a < P -> sameMod true P a b -> Z.abs a <= Z.abs b.
Proof. intros HP Ha [n ->]. destruct (Z.eq_dec n 0); [subst; lia|]. nia. Qed.

(** ** Generated coordinates *)
Lemma flat_map_zget {A} (f : Z -> list A) n m lo : 
  (forall i, lo <= i < lo + Z.of_nat n -> zlen (f i) = m) -> 0 <= m ->
  forall i r, 0 <= i < Z.of_nat n -> 0 <= r < m ->
  zget (flat_map f (zseq lo n)) (i * m + r) = zget (f (lo + i)) r.
Proof.
  revert lo. induction n as [|n IH]; intros lo Hf Hm i r Hi Hr; [lia|].
  simpl zseq. simpl flat_map. assert (zlen (f lo) = m) as Hl by (apply Hf; lia).
  destruct (Z.eq_dec i 0) as [->|Hi0].
  - rewrite zget_app_l by lia. replace (0 * m + r) with r by lia. rewrite Z.add_0_r. reflexivity.
  - rewrite zget_app_r by nia. replace (i * m + r - zlen (f lo)) with ((i - 1) * m + r) by lia.
    rewrite (IH (lo + 1)); [f_equal; f_equal; lia| |lia|lia|lia].
    intros; apply Hf; lia.
Qed.
Lemma flat_map_zlen {A} (f : Z -> list A) n m lo :
  (forall i, lo <= i < lo + Z.of_nat n -> zlen (f i) = m) -> zlen (flat_map f (zseq lo n)) = Z.of_nat n * m.
Proof.
  revert lo. induction n as [|n IH]; intros lo Hf; [reflexivity|].
  simpl zseq. simpl flat_map. rewrite zlen_app, (Hf lo), (IH (lo + 1)); [lia| |lia].
  intros; apply Hf; lia.
Qed.

Lemma lattice_sites_len basis : zlen basis = lt_nb L -> zlen (generateLatticeSites L basis) = nsites L.
Proof.
  intros Hb. destruct WF. unfold generateLatticeSites, zrange, nsites.
  rewrite flat_map_zlen with (m := lt_rb L * (lt_rc L * lt_nb L)); [nia|].
  intros i _. rewrite flat_map_zlen with (m := lt_rc L * lt_nb L); [nia|].
  intros j _. rewrite flat_map_zlen with (m := lt_nb L); [nia|].
  intros k _. rewrite zlen_map. exact Hb.
Qed.

Lemma lattice_sites_get basis i j k b beta : zlen basis = lt_nb L -> isSite L i j k b ->
  zget basis b = Some beta ->
  zget (generateLatticeSites L basis) (globalIndex L i j k b) =
  Some (mkC (cx beta + i * lt_unit L) (cy beta + j * lt_unit L) (cz beta + k * lt_unit L)).
Proof.
  intros Hl (Hi & Hj & Hk & Hb) E. destruct WF.
  replace (globalIndex L i j k b) with (i * (lt_rb L * (lt_rc L * lt_nb L)) + (j * (lt_rc L * lt_nb L) + (k * lt_nb L + b)))
    by (unfold globalIndex; ring).
  assert (0 <= k * lt_nb L + b < lt_rc L * lt_nb L) by nia.
  assert (0 <= j * (lt_rc L * lt_nb L) + (k * lt_nb L + b) < lt_rb L * (lt_rc L * lt_nb L)) by nia.
  unfold generateLatticeSites, zrange.
  rewrite flat_map_zget with (m := lt_rb L * (lt_rc L * lt_nb L)); try lia; try nia.
  2: { intros i' _. rewrite flat_map_zlen with (m := lt_rc L * lt_nb L); [nia|].
       intros j' _. rewrite flat_map_zlen with (m := lt_nb L); [nia|].
       intros k' _. rewrite zlen_map. exact Hl. }
  rewrite flat_map_zget with (m := lt_rc L * lt_nb L); try lia; try nia.
  2: { intros j' _. rewrite flat_map_zlen with (m := lt_nb L); [nia|].
       intros k' _. rewrite zlen_map. exact Hl. }
  rewrite flat_map_zget with (m := lt_nb L); try lia; try nia.
  2: { intros k' _. rewrite zlen_map. exact Hl. }
  rewrite zget_map, E. simpl. unfold cadd; simpl. do 2 f_equal; lia.
Qed.
End Lattice.

(** ** Coordinates of sites *)
Section Coordinates.
Context (L : lattice) (WF : wf_lattice L) (basis : list coord) (WB : wf_basis L basis).

Lemma basis_get b : 0 <= b < lt_nb L -> exists beta, zget basis b = Some beta /\ inUnitCell L beta.
Proof.
  intros H. destruct WB as (Hl & HF & _). rewrite <- Hl in H.
  destruct (zget_lt _ _ H) as [beta E]. exists beta. split; [exact E|].
  rewrite Forall_forall in HF. apply HF. eapply zget_In; eauto.
Qed.

Lemma site_coord_get x c : 0 <= x < nsites L -> zget (generateLatticeSites L basis) x = Some c ->
  exists i j k b beta, isSite L i j k b /\ x = globalIndex L i j k b /\ zget basis b = Some beta /\
    inUnitCell L beta /\
    c = mkC (cx beta + i * lt_unit L) (cy beta + j * lt_unit L) (cz beta + k * lt_unit L).
Proof.
  intros Hx E. destruct (site_of_index L WF x Hx) as (i & j & k & b & H & ->).
  destruct (basis_get b) as (beta & Eb & Hu); [apply H|].
  exists i, j, k, b, beta. repeat split; auto; try apply H; try apply Hu.
  rewrite (lattice_sites_get L WF basis i j k b beta) in E; auto; [congruence|apply WB].
Qed.

Lemma site_coord_range x c : 0 <= x < nsites L -> zget (generateLatticeSites L basis) x = Some c ->
  0 <= cx c < lt_ra L * lt_unit L /\ 0 <= cy c < lt_rb L * lt_unit L /\ 0 <= cz c < lt_rc L * lt_unit L.
Proof.
  intros Hx E. destruct (site_coord_get x c Hx E) as (i & j & k & b & beta & H & -> & Eb & Hu & ->).
  destruct H as (Hi & Hj & Hk & Hb), Hu as (Hx' & Hy' & Hz'). simpl. destruct WF.
  repeat split; nia.
Qed.

Lemma axis_distinct p rep S a b i j : 0 < S -> 0 <= a < S -> 0 <= b < S -> 0 <= i < rep -> 0 <= j < rep ->
  sameMod p (rep * S) (a + i * S) (b + j * S) -> a = b /\ i = j.
Proof.
  intros HS Ha Hb Hi Hj H.
  assert (exists n, b + j * S = a + i * S + n * (rep * S)) as (n & E).
  { destruct p; simpl in H; [exact H|exists 0; lia]. }
  assert (E1 : a - b = (j - i - n * rep) * S) by lia.
  assert (E2 : j - i - n * rep = 0) by (set (m := j - i - n * rep) in *; clearbody m; nia).
  split; [rewrite E2 in E1; lia|]. assert (n = 0) by nia. subst; lia.
Qed.

Lemma site_coord_inj x y c d : 0 <= x < nsites L -> 0 <= y < nsites L ->
  zget (generateLatticeSites L basis) x = Some c -> zget (generateLatticeSites L basis) y = Some d ->
  sameDisp L c d -> x = y.
Proof.
  intros Hx Hy Ec Ed (Sx & Sy & Sz).
  destruct (site_coord_get x c Hx Ec) as (i & j & k & b & beta & H & -> & Eb & Hu & ->).
  destruct (site_coord_get y d Hy Ed) as (i' & j' & k' & b' & beta' & H' & -> & Eb' & Hu' & ->).
  cbn [cx cy cz] in *. destruct H as (Hi & Hj & Hk & Hb), H' as (Hi' & Hj' & Hk' & Hb').
  destruct Hu as (U1 & U2 & U3), Hu' as (V1 & V2 & V3). destruct WF.
  apply axis_distinct in Sx, Sy, Sz; auto.
  destruct Sx as (X1 & ->), Sy as (Y1 & ->), Sz as (Z1 & ->).
  assert (beta = beta') by (destruct beta, beta'; simpl in *; congruence). subst beta'.
  assert (b = b') by (destruct WB as (_ & _ & ND); eapply zget_NoDup_inj; eauto). subst. reflexivity.
Qed.

Lemma sites_NoDup : NoDup (generateLatticeSites L basis).
Proof.
  apply NoDup_nth_error. intros n m Hn E.
  assert (Z.of_nat n < nsites L).
  { rewrite <- (lattice_sites_len L WF basis) by apply WB. unfold zlen. lia. }
  destruct (nth_error (generateLatticeSites L basis) n) as [c|] eqn:En; [|apply nth_error_None in En; lia].
  symmetry in E. assert (m < length (generateLatticeSites L basis))%nat by (apply nth_error_Some; congruence).
  assert (Z.of_nat m < nsites L).
  { rewrite <- (lattice_sites_len L WF basis) by apply WB. unfold zlen. lia. }
  rewrite <- zget_of_nat in En, E.
  assert (Z.of_nat n = Z.of_nat m); [|lia].
  eapply site_coord_inj; eauto; try lia.
  repeat split; unfold sameMod; [destruct (lt_pa L)|destruct (lt_pb L)|destruct (lt_pc L)]; try (exists 0); lia.
Qed.

Lemma wrapCoord_spec c : Z.abs (cx c) < lt_ra L * lt_unit L -> Z.abs (cy c) < lt_rb L * lt_unit L ->
  Z.abs (cz c) < lt_rc L * lt_unit L ->
  sameDisp L c (wrapCoord L c) /\
  (lt_pa L = true -> - (lt_ra L * lt_unit L) <= 2 * cx (wrapCoord L c) < lt_ra L * lt_unit L) /\
  (lt_pb L = true -> - (lt_rb L * lt_unit L) <= 2 * cy (wrapCoord L c) < lt_rb L * lt_unit L) /\
  (lt_pc L = true -> - (lt_rc L * lt_unit L) <= 2 * cz (wrapCoord L c) < lt_rc L * lt_unit L).
Proof.
  intros Hx Hy Hz. destruct WF. unfold wrapCoord, sameDisp. cbn [cx cy cz].
  assert (forall rep c, 0 < rep -> Z.abs c < rep * lt_unit L -> Z.abs c < rep * lt_unit L + rep * lt_unit L / 2) as HH.
  { intros rep c0 Hr Hc0. assert (0 <= rep * lt_unit L / 2) by (apply Z.div_pos; nia). lia. }
  repeat split; unfold sameMod in *;
  [destruct (lt_pa L)|destruct (lt_pb L)|destruct (lt_pc L)|..]; auto; intros; try rewrite H;
  try (apply wrap1_spec; auto; apply HH; auto).
Qed.
End Coordinates.
