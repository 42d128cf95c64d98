(** C67: which cells and lattices are accepted, and which sites they have. *)
From Verif Require Import PBase PLattice TLattice PTypes PPyProcess TPyProcess.
From Verif Require Export SPyLattice.
From Coq Require Import ZifyBool.
Open Scope string_scope.
Open Scope list_scope.
Open Scope Z_scope.

Lemma det_volume a b c : det3 a b c = volume a b c.
Proof. unfold det3, volume, dot, cross. cbn [cx cy cz]. ring. Qed.
Lemma coord_same c d : cx c = cx d -> cy c = cy d -> cz c = cz d -> c = d.
Proof. destruct c as [c1 c2 c3], d as [d1 d2 d3]. cbn. congruence. Qed.
Lemma readsCoords_fun v l m : readsCoords v l -> readsCoords v m -> l = m.
Proof.
  intros (l1 & A1 & B1) (l2 & A2 & B2). rewrite A1 in A2. injection A2 as <-. clear A1. revert m B2. induction B1 as [|x c l' cs Hx B1 IH]; intros m B2; inversion B2; subst; [reflexivity|].
  f_equal; [|apply IH; assumption]. match goal with H : readsVector x _ |- _ => unfold readsVector in Hx, H; rewrite Hx in H; injection H as X Y Z end. apply coord_same; congruence.
Qed.

(** The constructor accepts exactly these arguments, and holds what was given. *)
Theorem C67_unit_cell S cell_vectors basis_points u : 
  KMCUnitCell S cell_vectors basis_points = Ok u <->
  exists a b c ps, u = mkUC (a, b, c) ps /\ readsCoords cell_vectors [a; b; c] /\ S * S * S <= 100000 * volume a b c /\
    readsCoords basis_points ps /\ ps <> [] /\ forall p, In p ps -> fractionalPoint S p.
Proof.
  unfold KMCUnitCell, checkCellVectors. split.
  - intros H. destruct (checkCoordinateList cell_vectors) as [l|] eqn:E1; cbn [MPy.obind] in H; [|discriminate].
    destruct l as [|a [|b [|c [|]]]]; cbn [MPy.obind] in H; try discriminate. destruct (Z.ltb_spec (100000 * det3 a b c) (S * S * S)) as [|V]; cbn [MPy.obind] in H; [discriminate|].
    destruct (checkCoordinateList basis_points) as [ps|] eqn:E2; cbn [MPy.obind] in H; [|discriminate]. destruct (forallb _ ps) eqn:EF; [|discriminate]. injection H as <-. pose proof (checkCoordinateList_ne _ _ E2) as NE.
    exists a, b, c, ps. split; [reflexivity|]. split; [apply readsCoords_ok; [discriminate|exact E1]|]. split; [rewrite <- det_volume; exact V|]. split; [apply readsCoords_ok; assumption|]. split; [exact NE|].
    intros p Hp. rewrite forallb_forall in EF. specialize (EF p Hp). unfold fractional, fractionalPoint in *. lia.
  - intros (a & b & c & ps & -> & R1 & V & R2 & NE & F). apply readsCoords_ok in R1; [|discriminate]. apply readsCoords_ok in R2; [|exact NE]. rewrite R1. cbn [MPy.obind]. rewrite det_volume. destruct (Z.ltb_spec (100000 * volume a b c) (S * S * S)); [lia|].
    cbn [MPy.obind]. rewrite R2. cbn [MPy.obind]. assert (EF : forallb (fun p => fractional S (cx p) && fractional S (cy p) && fractional S (cz p)) ps = true); [|rewrite EF; reflexivity].
    apply forallb_forall. intros p Hp. specialize (F p Hp). unfold fractional, fractionalPoint in *. lia.
Qed.

(** Everything else ends with an Error (nan and infinities apart). *)
Lemma finite_seq v l : allFinite v = true -> asSeq v = Some l -> forall x, In x l -> allFinite x = true.
Proof.
  destruct v as [| | |f|s|l'|l'|]; cbn [allFinite asSeq]; try discriminate; intros H E x Hx; injection E as <-.
  - clear H. revert Hx. induction s as [|ch s IH]; cbn [chars In]; [intros []|]. intros [<-|Hx]; [reflexivity|exact (IH Hx)].
  - rewrite forallb_forall in H. exact (H x Hx).
  - rewrite forallb_forall in H. exact (H x Hx).
Qed.
Lemma asNum_finite v : allFinite v = true -> (exists x, asNum v = Ok x) \/ asNum v = Raise KmcError.
Proof. destruct v as [| | |f| | | |]; cbn [allFinite asNum]; try (right; reflexivity). destruct f; try discriminate. intros _. left. eexists. reflexivity. Qed.
Lemma coordOf_finite l : (forall x, In x l -> allFinite x = true) -> (exists c, coordOf l = Ok c) \/ coordOf l = Raise KmcError.
Proof.
  intros H. destruct l as [|x [|y [|z [|]]]]; try (right; reflexivity). cbn [coordOf].
  destruct (asNum_finite x) as [[a ->] | ->]; [apply H; cbn; auto| |right; reflexivity]. destruct (asNum_finite y) as [[b ->] | ->]; [apply H; cbn; auto| |right; reflexivity]. destruct (asNum_finite z) as [[c ->] | ->]; [apply H; cbn; auto| |right; reflexivity].
  left. eexists. reflexivity.
Qed.
Lemma oall_error {A B} (f : A -> outcome B) l : (forall x, In x l -> (exists y, f x = Ok y) \/ f x = Raise KmcError) -> (exists r, oall f l = Ok r) \/ oall f l = Raise KmcError.
Proof.
  induction l as [|x l IH]; intros H; [left; eexists; reflexivity|]. cbn [oall]. destruct (H x (or_introl eq_refl)) as [[y ->] | ->]; [|right; reflexivity]. cbn [MPy.obind].
  destruct IH as [[r ->] | ->]; [intros z Hz; apply H; right; exact Hz|left; eexists; reflexivity|right; reflexivity].
Qed.
Lemma coords_finite v : allFinite v = true -> (exists r, checkCoordinateList v = Ok r) \/ checkCoordinateList v = Raise KmcError.
Proof.
  intros H. unfold checkCoordinateList, seqOf. destruct (asSeq v) as [l|] eqn:E; cbn [MPy.obind]; [|right; reflexivity]. destruct (zlen l <? 1); [right; reflexivity|].
  apply oall_error. intros x Hx. pose proof (finite_seq _ _ H E x Hx) as Fx. destruct (asSeq x) as [m|] eqn:Em; cbn [MPy.obind]; [|right; reflexivity]. apply coordOf_finite. exact (finite_seq _ _ Fx Em).
Qed.
Theorem C67_cell_error S cell_vectors basis_points : allFinite cell_vectors = true -> allFinite basis_points = true ->
  (forall u, KMCUnitCell S cell_vectors basis_points <> Ok u) -> KMCUnitCell S cell_vectors basis_points = Raise KmcError.
Proof.
  intros F1 F2 H. unfold KMCUnitCell, checkCellVectors in *. destruct (coords_finite _ F1) as [[l E] | E]; rewrite E in *; [|reflexivity]. cbn [MPy.obind] in *.
  destruct l as [|a [|b [|c [|]]]]; cbn [MPy.obind] in *; try reflexivity. destruct (_ <? _); [reflexivity|]. cbn [MPy.obind] in *. destruct (coords_finite _ F2) as [[ps E2] | E2]; rewrite E2 in *; [|reflexivity]. cbn [MPy.obind] in *.
  destruct (forallb _ ps); [exfalso; exact (H _ eq_refl)|reflexivity].
Qed.

(** The vectors of an accepted cell are linearly independent; so the cartesian coordinates tell positions apart. *)
Lemma volume_independent a b c : volume a b c <> 0 -> independent a b c.
Proof.
  intros V x y z H. unfold cadd, scaled, czero in H. cbn [cx cy cz] in H. injection H as H1 H2 H3. unfold volume, dot, cross in V. cbn [cx cy cz] in V.
  assert (x * (cx a * (cy b * cz c - cz b * cy c) + cy a * (cz b * cx c - cx b * cz c) + cz a * (cx b * cy c - cy b * cx c)) = 0).
  { transitivity ((x * cx a + (y * cx b + z * cx c)) * (cy b * cz c - cz b * cy c) + (x * cy a + (y * cy b + z * cy c)) * (cz b * cx c - cx b * cz c) + (x * cz a + (y * cz b + z * cz c)) * (cx b * cy c - cy b * cx c)); [ring|]. rewrite H1, H2, H3. ring. }
  assert (y * (cx a * (cy b * cz c - cz b * cy c) + cy a * (cz b * cx c - cx b * cz c) + cz a * (cx b * cy c - cy b * cx c)) = 0).
  { transitivity ((x * cx a + (y * cx b + z * cx c)) * (cz a * cy c - cy a * cz c) + (x * cy a + (y * cy b + z * cy c)) * (cx a * cz c - cz a * cx c) + (x * cz a + (y * cz b + z * cz c)) * (cy a * cx c - cx a * cy c)); [ring|]. rewrite H1, H2, H3. ring. }
  assert (z * (cx a * (cy b * cz c - cz b * cy c) + cy a * (cz b * cx c - cx b * cz c) + cz a * (cx b * cy c - cy b * cx c)) = 0).
  { transitivity ((x * cx a + (y * cx b + z * cx c)) * (cy a * cz b - cz a * cy b) + (x * cy a + (y * cy b + z * cy c)) * (cz a * cx b - cx a * cz b) + (x * cz a + (y * cz b + z * cz c)) * (cx a * cy b - cy a * cx b)); [ring|]. rewrite H1, H2, H3. ring. }
  repeat match goal with H : _ * _ = 0 |- _ => apply Z.mul_eq_0 in H end. tauto.
Qed.
Theorem C67_independent S cell_vectors basis_points u : 0 < S -> KMCUnitCell S cell_vectors basis_points = Ok u ->
  (exists a b c, uc_vectors u = (a, b, c) /\ independent a b c) /\
  (forall p q, transformToCartesian u p = transformToCartesian u q -> p = q).
Proof.
  intros HS H. apply C67_unit_cell in H. destruct H as (a & b & c & ps & -> & _ & V & _).
  assert (I : independent a b c). { apply volume_independent. assert (0 < S * S * S) by nia. lia. }
  split; [exists a, b, c; auto|]. intros p q E. unfold transformToCartesian in E. cbn [uc_vectors] in E. injection E as E1 E2 E3.
  destruct (I (cx p - cx q) (cy p - cy q) (cz p - cz q)) as (X & Y & Z); [|apply coord_same; lia].
  unfold cadd, scaled, czero. cbn [cx cy cz]. f_equal; lia.
Qed.
(** But not every cell with linearly independent vectors is accepted: a left-handed one is not, and the message says they are linearly dependent. *)
Theorem C67_left_handed_refuted : exists cell_vectors a b c, readsCoords cell_vectors [a; b; c] /\ independent a b c /\
  KMCUnitCell 10 cell_vectors (pyCoords [czero]) = Raise KmcError.
Proof.
  exists (pyCoords [mkC 0 10 0; mkC 10 0 0; mkC 0 0 10]), (mkC 0 10 0), (mkC 10 0 0), (mkC 0 0 10). split; [|split; [apply volume_independent; vm_compute; discriminate|vm_compute; reflexivity]].
  eexists. split; [reflexivity|]. repeat constructor.
Qed.

(** The lattice: repetitions and periodicity. *)
Lemma three {A} (l : list A) : zlen l = 3 -> exists x y z, l = [x; y; z].
Proof. destruct l as [|x [|y [|z [|]]]]; unfold zlen; cbn; try lia. intros _. eauto. Qed.
Lemma repetitions_ok v ra rb rc : checkRepetitions v = Ok (ra, rb, rc) <-> readsRepetitions v ra rb rc.
Proof.
  unfold readsRepetitions. assert (N : v = VNone \/ v <> VNone) by (destruct v; auto; right; discriminate). destruct N as [-> |N].
  - unfold checkRepetitions. cbn. split.
    + intros H. injection H as <- <- <-. repeat (split; [lia|]). left. auto.
    + intros (_ & _ & _ & [(_ & -> & -> & ->)|(x & y & z & E & _)]); [reflexivity|discriminate].
  - assert (E : checkRepetitions v = try l <- seqOf v ;; if negb (zlen l =? 3) then Raise KmcError else try ns <- oall (fun x => match asInt x with Some n => Ok n | None => Raise KmcError end) l ;;
      if existsb (fun n => n <? 1) ns then Raise KmcError else match ns with [a; b; c] => Ok (a, b, c) | _ => Raise KmcError end) by (destruct v; try reflexivity; congruence).
    rewrite E. clear E. unfold seqOf. split.
    + intros H. destruct (asSeq v) as [l|]; cbn [MPy.obind] in H; [|discriminate]. destruct (Z.eqb_spec (zlen l) 3) as [L|]; cbn [negb] in H; [|discriminate]. apply three in L. destruct L as (x & y & z & ->). cbn [oall] in H.
      destruct (asInt x) as [a|] eqn:X; [|discriminate]. cbn [MPy.obind] in H. destruct (asInt y) as [b|] eqn:Y; [|discriminate]. cbn [MPy.obind] in H. destruct (asInt z) as [c|] eqn:Z; [|discriminate]. cbn [MPy.obind] in H.
      destruct (existsb _ _) eqn:EX; [discriminate|]. injection H as -> -> ->. cbn [existsb] in EX. repeat (split; [lia|]). right. exists x, y, z. auto.
    + intros (A & B & C & [(-> & _)|(x & y & z & -> & X & Y & Z)]); [congruence|]. cbn [MPy.obind]. change (zlen [x; y; z]) with 3. cbn [Z.eqb Pos.eqb negb oall]. rewrite X. cbn [MPy.obind]. rewrite Y. cbn [MPy.obind]. rewrite Z. cbn [MPy.obind existsb].
      destruct (Z.ltb_spec ra 1); [lia|]. destruct (Z.ltb_spec rb 1); [lia|]. destruct (Z.ltb_spec rc 1); [lia|]. reflexivity.
Qed.
Lemma periodic_ok v pa pb pc : checkPeriodic v = Ok (pa, pb, pc) <-> readsPeriodic v pa pb pc.
Proof.
  unfold readsPeriodic. assert (N : v = VNone \/ v <> VNone) by (destruct v; auto; right; discriminate). destruct N as [-> |N].
  - cbn. split; [intros H; injection H as <- <- <-; auto|]. intros [(_ & -> & -> & ->)|E]; [reflexivity|discriminate].
  - assert (E : checkPeriodic v = try l <- seqOf v ;; if negb (zlen l =? 3) then Raise KmcError else try bs <- oall (fun x => match x with VBool b => Ok b | _ => Raise KmcError end) l ;;
      match bs with [a; b; c] => Ok (a, b, c) | _ => Raise KmcError end) by (destruct v; try reflexivity; congruence).
    rewrite E. clear E. unfold seqOf. split.
    + intros H. destruct (asSeq v) as [l|]; cbn [MPy.obind] in H; [|discriminate]. destruct (Z.eqb_spec (zlen l) 3) as [L|]; cbn [negb] in H; [|discriminate]. apply three in L. destruct L as (x & y & z & ->). cbn [oall] in H.
      destruct x; try discriminate; cbn [MPy.obind] in H. destruct y; try discriminate; cbn [MPy.obind] in H. destruct z; try discriminate; cbn [MPy.obind] in H. injection H as <- <- <-. right. reflexivity.
    + intros [(-> & _)|E]; [congruence|]. rewrite E. reflexivity.
Qed.
Theorem C67_lattice S u repetitions periodic kl : 
  KMCLattice S (Some u) repetitions periodic = Ok kl <->
  exists ra rb rc pa pb pc, readsRepetitions repetitions ra rb rc /\ readsPeriodic periodic pa pb pc /\
    let L := mkLat (zlen (uc_basis u)) ra rb rc pa pb pc S in kl = mkKL u L (generateLatticeSites L (uc_basis u)).
Proof.
  unfold KMCLattice. split.
  - intros H. destruct (checkRepetitions repetitions) as [[[ra rb] rc]|] eqn:E1; cbn [MPy.obind] in H; [|discriminate]. destruct (checkPeriodic periodic) as [[[pa pb] pc]|] eqn:E2; cbn [MPy.obind] in H; [|discriminate].
    injection H as <-. apply repetitions_ok in E1. apply periodic_ok in E2. exists ra, rb, rc, pa, pb, pc. auto.
  - intros (ra & rb & rc & pa & pb & pc & R1 & R2 & ->). apply repetitions_ok in R1. apply periodic_ok in R2. rewrite R1. cbn [MPy.obind]. rewrite R2. reflexivity.
Qed.
Theorem C67_lattice_error S unit_cell repetitions periodic : (forall kl, KMCLattice S unit_cell repetitions periodic <> Ok kl) -> KMCLattice S unit_cell repetitions periodic = Raise KmcError.
Proof.
  destruct unit_cell as [u|]; [|reflexivity]. unfold KMCLattice. intros H.
  assert (A : (exists r, checkRepetitions repetitions = Ok r) \/ checkRepetitions repetitions = Raise KmcError).
  { unfold checkRepetitions. destruct (match repetitions with VNone => Ok _ | _ => _ end) as [l|e] eqn:E; cbn [MPy.obind].
    - destruct (negb _); [right; reflexivity|]. destruct (oall_error (fun x => match asInt x with Some n => Ok n | None => Raise KmcError end) l) as [[ns ->] | ->]; [intros x _; destruct (asInt x); [left; eexists; reflexivity|right; reflexivity]| |right; reflexivity].
      cbn [MPy.obind]. destruct (existsb _ ns); [right; reflexivity|]. destruct ns as [|a [|b [|c [|]]]]; try (right; reflexivity). left. eexists. reflexivity.
    - right. destruct repetitions; cbn in E; congruence. }
  assert (B : (exists r, checkPeriodic periodic = Ok r) \/ checkPeriodic periodic = Raise KmcError).
  { unfold checkPeriodic. destruct (match periodic with VNone => Ok _ | _ => _ end) as [l|e] eqn:E; cbn [MPy.obind].
    - destruct (negb _); [right; reflexivity|]. destruct (oall_error (fun x => match x with VBool b => Ok b | _ => Raise KmcError end) l) as [[ns ->] | ->]; [intros x _; destruct x; try (right; reflexivity); left; eexists; reflexivity| |right; reflexivity].
      cbn [MPy.obind]. destruct ns as [|a [|b [|c [|]]]]; try (right; reflexivity). left. eexists. reflexivity.
    - right. destruct periodic; cbn in E; congruence. }
  destruct A as [[[[ra rb] rc] E1] | E1]; rewrite E1 in *; [|reflexivity]. cbn [MPy.obind] in *. destruct B as [[[[pa pb] pc] E2] | E2]; rewrite E2 in *; [|reflexivity]. cbn [MPy.obind] in *. exfalso. exact (H _ eq_refl).
Qed.

(** The sites: one for each basis point of each cell, at the basis point moved by whole cells, numbered with the basis point fastest, then c, b, a.
    If no basis point is given twice, no two sites are at the same place, not even up to the periodicity of the lattice. *)
Theorem C67_sites S cell_vectors basis_points repetitions periodic u kl : 0 < S -> KMCUnitCell S cell_vectors basis_points = Ok u -> KMCLattice S (Some u) repetitions periodic = Ok kl ->
  exists ra rb rc pa pb pc ps, readsRepetitions repetitions ra rb rc /\ readsPeriodic periodic pa pb pc /\ readsCoords basis_points ps /\
    let n := zlen ps in let L := kl_lat kl in
    L = mkLat n ra rb rc pa pb pc S /\ wf_lattice L /\ zlen (kl_sites kl) = ra * rb * rc * n /\
    (forall i j k m p, 0 <= i < ra -> 0 <= j < rb -> 0 <= k < rc -> zget ps m = Some p ->
       zget (kl_sites kl) (i * rb * rc * n + j * rc * n + k * n + m) = Some (mkC (cx p + i * S) (cy p + j * S) (cz p + k * S))) /\
    (NoDup ps -> wf_basis L ps /\ NoDup (kl_sites kl) /\ forall x y c d, zget (kl_sites kl) x = Some c -> zget (kl_sites kl) y = Some d -> sameDisp L c d -> x = y).
Proof.
  intros HS HU HL. apply C67_unit_cell in HU. destruct HU as (a & b & c & ps & -> & _ & _ & RP & NE & F). apply C67_lattice in HL. destruct HL as (ra & rb & rc & pa & pb & pc & R1 & R2 & ->). cbn [uc_basis kl_lat kl_sites].
  set (L := mkLat (zlen ps) ra rb rc pa pb pc S). exists ra, rb, rc, pa, pb, pc, ps. split; [exact R1|]. split; [exact R2|]. split; [exact RP|]. cbv zeta. split; [reflexivity|]. destruct R1 as (P1 & P2 & P3 & _).
  assert (HN : 0 < zlen ps) by (destruct ps; [congruence|rewrite zlen_cons; pose proof (zlen_nonneg ps); lia]). assert (WF : wf_lattice L) by (constructor; cbn; lia). split; [exact WF|].
  destruct (C01_site_numbering L ps WF eq_refl) as (N1 & N2).
  assert (G : forall i j k m p, 0 <= i < ra -> 0 <= j < rb -> 0 <= k < rc -> zget ps m = Some p -> zget (generateLatticeSites L ps) (i * rb * rc * zlen ps + j * rc * zlen ps + k * zlen ps + m) = Some (mkC (cx p + i * S) (cy p + j * S) (cz p + k * S))).
  { intros i j k m p Hi Hj Hk Ep. assert (SI : isSite L i j k m) by (pose proof (zget_range _ _ _ Ep); unfold isSite; cbn; lia). destruct (N1 i j k m p SI Ep) as (_ & _ & _ & X). cbn in X. destruct X as (_ & _ & X).
    cbn [lt_rb lt_rc lt_nb lt_unit] in X. exact X. }
  split; [|split; [exact G|]].
  - pose proof (lattice_sites_len L WF ps eq_refl) as X. unfold nsites in X. cbn in X. exact X.
  - intros ND. assert (WB : wf_basis L ps). { split; [reflexivity|]. split; [|exact ND]. apply Forall_forall. intros p Hp. exact (F p Hp). }
    split; [exact WB|]. destruct (C61_sites_distinct L ps WF WB) as (D1 & _ & D3 & _). split; [exact D1|exact D3].
Qed.
(** Nothing keeps a basis point from being given twice: then two sites lie at the same place. *)
Theorem C67_coinciding_refuted : exists u kl x y c, KMCUnitCell 10 (pyCoords [mkC 10 0 0; mkC 0 10 0; mkC 0 0 10]) (pyCoords [mkC 5 0 0; mkC 5 0 0]) = Ok u /\
  KMCLattice 10 (Some u) VNone VNone = Ok kl /\ x <> y /\ zget (kl_sites kl) x = Some c /\ zget (kl_sites kl) y = Some c.
Proof. do 2 eexists. exists 0, 1. eexists. split; [vm_compute; reflexivity|]. split; [vm_compute; reflexivity|]. split; [discriminate|]. split; vm_compute; reflexivity. Qed.
(** a slanted cell with two basis points, repeated 2 x 3 x 1, open along b; what is rejected: a basis point at 1.0, vectors in a plane, repetitions of zero, too few, or floats, periodicity given as numbers *)
Definition pyCell : pyval := pyCoords [mkC 10 0 0; mkC 5 9 0; mkC 0 0 20].
Definition pyPoints : pyval := pyCoords [czero; mkC 5 2 5].
Example C67_example : exists u kl, KMCUnitCell 10 pyCell pyPoints = Ok u /\ KMCLattice 10 (Some u) (VTuple [VInt 2; VInt 3; VBool true]) (VList [VBool true; VBool false; VBool true]) = Ok kl /\
  zget (kl_sites kl) 11 = Some (mkC 15 22 5) /\ zlen (kl_sites kl) = 12 /\ NoDup (uc_basis u) /\
  (exists kl1, KMCLattice 10 (Some u) VNone VNone = Ok kl1 /\ zlen (kl_sites kl1) = 2) /\
  KMCUnitCell 10 pyCell (pyCoords [mkC 0 10 0]) = Raise KmcError /\ KMCUnitCell 10 (pyCoords [mkC 10 0 0; mkC 5 9 0; mkC 15 9 0]) pyPoints = Raise KmcError /\
  KMCLattice 10 (Some u) (VTuple [VInt 2; VInt 0; VInt 1]) VNone = Raise KmcError /\ KMCLattice 10 (Some u) (VTuple [VInt 2; VInt 1]) VNone = Raise KmcError /\
  KMCLattice 10 (Some u) (VTuple [VInt 2; VFloat (FNum 10); VInt 1]) VNone = Raise KmcError /\ KMCLattice 10 (Some u) VNone (VTuple [VInt 1; VInt 0; VInt 1]) = Raise KmcError /\
  KMCLattice 10 None VNone VNone = Raise KmcError.
Proof.
  do 2 eexists. split; [vm_compute; reflexivity|]. split; [vm_compute; reflexivity|]. split; [vm_compute; reflexivity|]. split; [vm_compute; reflexivity|]. split.
  - cbn [uc_basis]. constructor; [intros [H|[]]; discriminate|]. constructor; [intros []|constructor].
  - split; [eexists; split; vm_compute; reflexivity|]. repeat (split; [vm_compute; reflexivity|]). vm_compute; reflexivity.
Qed.

Print Assumptions C67_unit_cell.
Print Assumptions C67_cell_error.
Print Assumptions C67_independent.
Print Assumptions C67_left_handed_refuted.
Print Assumptions C67_lattice.
Print Assumptions C67_lattice_error.
Print Assumptions C67_sites.
Print Assumptions C67_coinciding_refuted.
Print Assumptions C67_example.
