(** Property theorems about the lattice: C01, C02, C03, C04, C61. *)
From Verif Require Import Base MLattice SLattice PBase PLattice.
Open Scope Z_scope.

(** A lattice used in the examples: 4 x 5 x 6 cells with two basis points, open along c. *)
Definition exL : lattice := mkLat 2 4 5 6 true true false 2.
Definition exBasis : list coord := [mkC 0 0 0; mkC 1 1 1].
Example exL_wf : wf_lattice exL. Proof. constructor; reflexivity. Qed.
Example exBasis_wf : wf_basis exL exBasis.
Proof.
  repeat split; try reflexivity.
  - repeat constructor; simpl; lia.
  - repeat constructor; simpl; intuition discriminate.
Qed.

(** C01: the site (i,j,k,b) is stored under i*nB*nC*n + j*nC*n + k*n + b: this is the python number,
    the number the backend uses, the position of its coordinate in sites(); the backend's
    index-to-cell and index-to-basis conversions invert it; every index is the number of a site. *)
Theorem C01_site_numbering : forall (L : lattice) (basis : list coord),
  wf_lattice L -> zlen basis = lt_nb L ->
  (forall i j k b beta, isSite L i j k b -> zget basis b = Some beta ->
     let x := i * lt_rb L * lt_rc L * lt_nb L + j * lt_rc L * lt_nb L + k * lt_nb L + b in
     globalIndex L i j k b = x /\
     zget (indicesFromCell L i j k) b = Some x /\
     0 <= x < lt_ra L * lt_rb L * lt_rc L * lt_nb L /\
     indexToCell L x = (i, j, k) /\
     basisSiteFromIndex L x = b /\
     zget (generateLatticeSites L basis) x =
       Some (mkC (cx beta + i * lt_unit L) (cy beta + j * lt_unit L) (cz beta + k * lt_unit L))) /\
  (forall x, 0 <= x < zlen (generateLatticeSites L basis) ->
     let '(i, j, k) := indexToCell L x in
     let b := basisSiteFromIndex L x in
     isSite L i j k b /\
     x = i * lt_rb L * lt_rc L * lt_nb L + j * lt_rc L * lt_nb L + k * lt_nb L + b).
Proof.
  intros L basis WF Hl. split.
  - intros i j k b beta H E x. fold (globalIndex L i j k b) in x. subst x.
    repeat split; auto.
    + apply indicesFromCell_get, H.
    + apply globalIndex_range; auto.
    + apply globalIndex_range; auto.
    + apply indexToCell_global; auto.
    + apply basis_global; auto.
    + apply lattice_sites_get with (b := b); auto.
  - intros x Hx. rewrite lattice_sites_len in Hx by auto.
    destruct (site_of_index L WF x Hx) as (i & j & k & b & H & ->).
    rewrite indexToCell_global, basis_global by auto. split; [exact H|reflexivity].
Qed.
Example C01_example :
  globalIndex exL 3 4 5 1 = 239 /\ indexToCell exL 239 = (3, 4, 5) /\
  zget (generateLatticeSites exL exBasis) 239 = Some (mkC 7 9 11).
Proof. repeat split; vm_compute; reflexivity. Qed.
Print Assumptions C01_site_numbering.

(** C02: y is in the neighbour list of x iff x is in the neighbour list of y. *)
Theorem C02_neighbourhood_symmetric : forall (L : lattice) (x y R : Z),
  wf_lattice L -> 0 <= x < nsites L -> 0 <= y < nsites L -> 0 <= R ->
  (In y (neighbourIndices L x R) <-> In x (neighbourIndices L y R)).
Proof. intros; apply neighbour_sym; auto. Qed.
Example C02_example : In 239 (neighbourIndices exL 8 1) /\ ~ In 239 (neighbourIndices exL 0 1).
Proof. rewrite <- zmem_In, <- zmem_not_In. split; vm_compute; reflexivity. Qed.
Print Assumptions C02_neighbourhood_symmetric.

(** C03: the neighbour list of x contains exactly the numbers of the sites whose cell is at most R
    cells away along every axis (through periodic images along periodic axes); nothing twice if the
    neighbourhood fits in the periodic lattice. *)
Theorem C03_neighbourhood_exact : forall (L : lattice) (x R : Z),
  wf_lattice L -> 0 <= x < nsites L -> 0 <= R ->
  (forall y, In y (neighbourIndices L x R) <->
     exists i j k b i' j' k' b',
       isSite L i j k b /\ x = globalIndex L i j k b /\
       isSite L i' j' k' b' /\ y = globalIndex L i' j' k' b' /\
       axisNear (lt_pa L) (lt_ra L) R i i' /\
       axisNear (lt_pb L) (lt_rb L) R j j' /\
       axisNear (lt_pc L) (lt_rc L) R k k') /\
  (forall y, In y (neighbourIndices L x R) -> 0 <= y < nsites L) /\
  ((lt_pa L = true -> 2 * R + 1 <= lt_ra L) ->
   (lt_pb L = true -> 2 * R + 1 <= lt_rb L) ->
   (lt_pc L = true -> 2 * R + 1 <= lt_rc L) -> NoDup (neighbourIndices L x R)).
Proof.
  intros L x R WF Hx HR. repeat split.
  - intros H. apply neighbour_spec in H; auto.
  - intros H. apply neighbour_spec; auto.
  - eapply neighbour_range; eauto.
  - eapply neighbour_range; eauto.
  - intros; apply neighbour_NoDup; auto.
Qed.
Example C03_example : zlen (neighbourIndices exL 0 1) = 36 /\ zlen (neighbourIndices exL 26 1) = 54.
Proof. split; vm_compute; reflexivity. Qed.
(** Without the size condition a site can be listed twice, and the number of times depends on
    where the site is: three cells along a, four shells. *)
Theorem C03_duplicates_on_small_lattices :
  exists L x y R, wf_lattice L /\ 0 <= x < nsites L /\ 0 <= y < nsites L /\
    ~ NoDup (neighbourIndices L x R) /\
    zlen (neighbourIndices L x R) <> zlen (neighbourIndices L y R).
Proof.
  exists (mkLat 1 3 1 1 true false false 1), 0, 1, 4.
  repeat split; try lia.
  - vm_compute. intros H. inversion H; subst. apply H2. simpl; auto.
  - vm_compute. discriminate.
Qed.
Print Assumptions C03_neighbourhood_exact.

(** C04: for the difference d of two site coordinates, the wrapped coordinate differs from d by whole
    periods along periodic axes and equals it along open axes, lies in the half-open centred window,
    is the shortest image, and wrapping again (or wrapping anything in the window) changes nothing. *)
Theorem C04_minimum_image : forall (L : lattice) (basis : list coord) (x y : Z) (cx0 cy0 : coord),
  wf_lattice L -> wf_basis L basis ->
  zget (generateLatticeSites L basis) x = Some cx0 ->
  zget (generateLatticeSites L basis) y = Some cy0 ->
  let d := csub cy0 cx0 in
  let w := wrapCoord L d in
  sameDisp L d w /\
  (lt_pa L = true -> - (lt_ra L * lt_unit L) <= 2 * cx w < lt_ra L * lt_unit L) /\
  (lt_pb L = true -> - (lt_rb L * lt_unit L) <= 2 * cy w < lt_rb L * lt_unit L) /\
  (lt_pc L = true -> - (lt_rc L * lt_unit L) <= 2 * cz w < lt_rc L * lt_unit L) /\
  (forall e, sameDisp L d e -> cnorm2 w <= cnorm2 e) /\
  wrapCoord L w = w.
Proof.
  intros L basis x y c0 c1 WF WB Ex Ey d w.
  assert (Hx : 0 <= x < nsites L).
  { rewrite <- (lattice_sites_len L WF basis) by apply WB. eapply zget_range; eauto. }
  assert (Hy : 0 <= y < nsites L).
  { rewrite <- (lattice_sites_len L WF basis) by apply WB. eapply zget_range; eauto. }
  pose proof (site_coord_range L WF basis WB x c0 Hx Ex) as (A1 & A2 & A3).
  pose proof (site_coord_range L WF basis WB y c1 Hy Ey) as (B1 & B2 & B3).
  pose proof (wrapCoord_spec L WF d) as HW. unfold d, csub in HW. cbn [cx cy cz] in HW.
  destruct HW as (S0 & Wa & Wb & Wc); try lia. fold (csub c1 c0) in S0, Wa, Wb, Wc. fold d w in S0, Wa, Wb, Wc.
  split; [exact S0|]. split; [exact Wa|]. split; [exact Wb|]. split; [exact Wc|]. split.
  - intros e (Se1 & Se2 & Se3). destruct S0 as (S1 & S2 & S3). destruct WF.
    assert (Habs : forall p P a b e, 0 < P -> (p = true -> - P <= 2 * b < P) -> sameMod p P a b ->
             sameMod p P a e -> Z.abs b <= Z.abs e).
    { intros p P a b e0 HP Hw H1 H2. destruct p; simpl in *.
      - apply (window_min P b e0 HP); [auto|]. destruct H1 as [n1 ->], H2 as [n2 ->].
        exists (n2 - n1). ring.
      - subst; lia. }
    assert (Z.abs (cx w) <= Z.abs (cx e)) by (eapply Habs; [|exact Wa|exact S1|exact Se1]; nia).
    assert (Z.abs (cy w) <= Z.abs (cy e)) by (eapply Habs; [|exact Wb|exact S2|exact Se2]; nia).
    assert (Z.abs (cz w) <= Z.abs (cz e)) by (eapply Habs; [|exact Wc|exact S3|exact Se3]; nia).
    assert (Hsq : forall a b, Z.abs a <= Z.abs b -> a * a <= b * b) by (intros; nia).
    unfold cnorm2. pose proof (Hsq _ _ H). pose proof (Hsq _ _ H0). pose proof (Hsq _ _ H1). lia.
  - assert (Hid : forall rep c, - (rep * lt_unit L) <= 2 * c < rep * lt_unit L -> wrap1 (lt_unit L) rep c = c).
    { intros rep c Hc. unfold wrap1. destruct (Z.leb_spec (rep * lt_unit L) (2 * c)); [lia|].
      destruct (Z.ltb_spec (2 * c) (- (rep * lt_unit L))); lia. }
    clearbody w. destruct w as [wa wb wc]. unfold wrapCoord. cbn [cx cy cz] in *.
    f_equal; [destruct (lt_pa L)|destruct (lt_pb L)|destruct (lt_pc L)]; auto.
Qed.
Example C04_example : wrapCoord exL (csub (mkC 7 9 11) (mkC 0 0 0)) = mkC (-1) (-1) 11.
Proof. reflexivity. Qed.
Print Assumptions C04_minimum_image.

(** C61: sites are basis point + cell, and no two sites coincide, not even through periodic images. *)
Theorem C61_sites_distinct : forall (L : lattice) (basis : list coord),
  wf_lattice L -> wf_basis L basis ->
  NoDup (generateLatticeSites L basis) /\
  zlen (generateLatticeSites L basis) = lt_ra L * lt_rb L * lt_rc L * lt_nb L /\
  (forall x y c d, zget (generateLatticeSites L basis) x = Some c ->
     zget (generateLatticeSites L basis) y = Some d -> sameDisp L c d -> x = y) /\
  (forall x c, zget (generateLatticeSites L basis) x = Some c ->
     exists i j k b beta, isSite L i j k b /\ x = globalIndex L i j k b /\ zget basis b = Some beta /\
       c = mkC (cx beta + i * lt_unit L) (cy beta + j * lt_unit L) (cz beta + k * lt_unit L)).
Proof.
  intros L basis WF WB.
  assert (HR : forall x c, zget (generateLatticeSites L basis) x = Some c -> 0 <= x < nsites L).
  { intros x c E. rewrite <- (lattice_sites_len L WF basis) by apply WB. eapply zget_range; eauto. }
  split; [apply sites_NoDup; auto|]. split; [apply lattice_sites_len; auto; apply WB|]. split.
  - intros x y c d Ex Ey S0. eapply site_coord_inj; eauto.
  - intros x c E. destruct (site_coord_get L WF basis WB x c (HR _ _ E) E) as (i & j & k & b & beta & H).
    exists i, j, k, b, beta. tauto.
Qed.
Example C61_example : zlen (generateLatticeSites exL exBasis) = 240.
Proof. vm_compute. reflexivity. Qed.
Print Assumptions C61_sites_distinct.
