(** Decision procedures for the hypotheses of the theorems, used to show that concrete systems meet them. *)
From Coq Require Import Sorted.
From Verif Require Import PBase SModel SGeo PLattice PProcess PMpi PRateTable PMatcher PPerform PStep PGeo PPossible PRun PEffect.
Open Scope Z_scope.
Open Scope list_scope.

Ltac bh := repeat match goal with
  | H : (_ && _)%bool = true |- _ => apply andb_true_iff in H; destruct H
  | H : (_ =? _) = true |- _ => apply Z.eqb_eq in H
  | H : (_ <? _) = true |- _ => apply Z.ltb_lt in H
  | H : (_ <=? _) = true |- _ => apply Z.leb_le in H
  end.

Definition wf_latticeb (L : lattice) : bool :=
  (0 <? lt_nb L) && (0 <? lt_ra L) && (0 <? lt_rb L) && (0 <? lt_rc L) && (0 <? lt_unit L).
Lemma wf_latticeb_sound L : wf_latticeb L = true -> wf_lattice L.
Proof. unfold wf_latticeb. intros H. bh. constructor; lia. Qed.

Definition wfInputb (ranks : Z) (L : lattice) (cf : config) (it : interactions) : bool :=
  wf_latticeb L && (1 <=? ranks) && (zlen (cf_coords cf) =? nsites L) && (zlen (cf_types cf) =? nsites L) &&
  (zlen (cf_elements cf) =? nsites L) && forallb (fun p => Bool.eqb (pr_custom p) (in_custom it)) (in_procs it) &&
  forallb (fun p => forallb (fun a => a =? 0) (pr_aff p)) (in_procs it).
Lemma wfInputb_sound ranks L cf it : wfInputb ranks L cf it = true -> wfInput ranks L cf it.
Proof.
  unfold wfInputb. rewrite !andb_true_iff. intros ((((((H1 & H2) & H3) & H4) & H5) & H6) & H7).
  apply Z.leb_le in H2. apply Z.eqb_eq in H3, H4, H5. rewrite forallb_forall in H6, H7.
  constructor; auto using wf_latticeb_sound.
  - intros i p Ep. apply Bool.eqb_prop. apply H6. eapply zget_In; eauto.
  - intros i p a Ep Ha. specialize (H7 p (zget_In _ _ _ Ep)). rewrite forallb_forall in H7. apply Z.eqb_eq. auto.
Qed.

Fixpoint nodupb {A} (eqb : A -> A -> bool) (l : list A) : bool :=
  match l with [] => true | a :: l' => negb (existsb (eqb a) l') && nodupb eqb l' end.
Lemma nodupb_sound {A} (eqb : A -> A -> bool) l : (forall a, eqb a a = true) -> nodupb eqb l = true -> NoDup l.
Proof.
  intros HR. induction l as [|a l IH]; intros H; [constructor|]. cbn [nodupb] in H. apply andb_true_iff in H. destruct H as [H1 H2].
  constructor; [|apply IH; exact H2]. intros Hin. apply negb_true_iff in H1.
  assert (existsb (eqb a) l = true) by (apply existsb_exists; exists a; auto). congruence.
Qed.
Lemma ceqb_refl a : ceqb a a = true. Proof. apply ceqb_eq. reflexivity. Qed.

Definition inUnitCellb (L : lattice) (c : coord) : bool :=
  (0 <=? cx c) && (cx c <? lt_unit L) && (0 <=? cy c) && (cy c <? lt_unit L) && (0 <=? cz c) && (cz c <? lt_unit L).
Definition wf_basisb (L : lattice) (basis : list coord) : bool :=
  (zlen basis =? lt_nb L) && forallb (inUnitCellb L) basis && nodupb ceqb basis.
Lemma wf_basisb_sound L basis : wf_basisb L basis = true -> wf_basis L basis.
Proof.
  unfold wf_basisb. rewrite !andb_true_iff. intros ((H1 & H2) & H3). split; [apply Z.eqb_eq; exact H1|]. split.
  - apply Forall_forall. intros c Hc. rewrite forallb_forall in H2. specialize (H2 c Hc). unfold inUnitCellb in H2. bh. unfold inUnitCell. lia.
  - eapply nodupb_sound; [apply ceqb_refl|exact H3].
Qed.

Definition uniformAxisb (p : bool) (rep R : Z) : bool := if p then 2 * R + 1 <=? rep else rep =? 1.
Lemma uniformAxisb_sound p rep R : uniformAxisb p rep R = true -> uniformAxis p rep R.
Proof. unfold uniformAxisb, uniformAxis. destruct p; intros H; bh; lia. Qed.
Definition uniformb (L : lattice) (R : Z) : bool :=
  uniformAxisb (lt_pa L) (lt_ra L) R && uniformAxisb (lt_pb L) (lt_rb L) R && uniformAxisb (lt_pc L) (lt_rc L) R.
Lemma uniformb_sound L R : uniformb L R = true -> uniform L R.
Proof. unfold uniformb. rewrite !andb_true_iff. intros ((H1 & H2) & H3). repeat split; apply uniformAxisb_sound; auto. Qed.

(** coarse enough coordinates and small enough lattices always have distances that differ by more than the tolerance *)
Definition reachBound (L : lattice) : Z :=
  (lt_ra L * lt_unit L) * (lt_ra L * lt_unit L) + (lt_rb L * lt_unit L) * (lt_rb L * lt_unit L) + (lt_rc L * lt_unit L) * (lt_rc L * lt_unit L).
Lemma reach_bound L basis R b v : wf_lattice L -> wf_basis L basis -> inReach L basis R b v -> cnorm2 v <= reachBound L.
Proof.
  intros [] WB (b' & beta & beta' & i & j & k & E1 & E2 & R1 & R2 & R3 & Ev & W1 & W2 & W3).
  assert (H1 : inUnitCell L beta) by (destruct WB as (_ & WB & _); rewrite Forall_forall in WB; apply WB; eapply zget_In; eauto).
  assert (H2 : inUnitCell L beta') by (destruct WB as (_ & WB & _); rewrite Forall_forall in WB; apply WB; eapply zget_In; eauto).
  assert (HH : forall p rep n S a a' v, 0 < S -> 0 < rep -> 0 <= a < S -> 0 <= a' < S -> reach1 p rep R n -> v = a' - a + n * S ->
     window1 p (rep * S) v -> v * v <= (rep * S) * (rep * S)).
  { clear. intros p rep n S a a' v HS Hr Ha Ha' Hn -> W. destruct p.
    - specialize (W eq_refl). clear Hn. generalize dependent (rep * S). generalize (a' - a + n * S). intros. nia.
    - simpl in Hn. subst n. replace (a' - a + 0 * S) with (a' - a) by lia. assert (S <= rep * S) by nia. generalize dependent (rep * S). intros. nia. }
  destruct H1 as (A1 & A2 & A3), H2 as (B1 & B2 & B3). unfold cnorm2, reachBound. subst v. cbn [cx cy cz] in *.
  pose proof (HH _ _ i (lt_unit L) _ _ _ wfl_unit wfl_ra A1 B1 R1 eq_refl W1).
  pose proof (HH _ _ j (lt_unit L) _ _ _ wfl_unit wfl_rb A2 B2 R2 eq_refl W2).
  pose proof (HH _ _ k (lt_unit L) _ _ _ wfl_unit wfl_rc A3 B3 R3 eq_refl W3). lia.
Qed.
Lemma clean_of_size L basis R b : wf_lattice L -> wf_basis L basis ->
  4 * reachBound L * (lt_unit L * lt_unit L) <= e10 -> cleanPts (lt_unit L) (inReach L basis R b).
Proof.
  intros WF WB H. apply clean_small with (D := reachBound L); [apply WF|exact H|]. intros a Ha. eapply reach_bound; eauto.
Qed.

Fixpoint coords_eqb (a b : list coord) : bool :=
  match a, b with [], [] => true | x :: a', y :: b' => ceqb x y && coords_eqb a' b' | _, _ => false end.
Lemma coords_eqb_sound a : forall b, coords_eqb a b = true -> a = b.
Proof.
  induction a as [|x a IH]; intros [|y b] H; cbn [coords_eqb] in H; try discriminate; [reflexivity|].
  apply andb_true_iff in H. destruct H as [H1 H2]. apply ceqb_eq in H1. f_equal; auto.
Qed.
Definition geoInputb (L : lattice) (basis : list coord) (R W : Z) (cf : config) : bool :=
  wf_latticeb L && wf_basisb L basis && coords_eqb (cf_coords cf) (generateLatticeSites L basis) && uniformb L R &&
  (lt_unit L <? 100000) && (4 * reachBound L * (lt_unit L * lt_unit L) <=? e10) && forallb (fun t => zlen t =? W) (cf_types cf) && (1 <=? W).
Lemma geoInputb_sound L basis R W cf : geoInputb L basis R W cf = true -> geoInput L basis R W cf.
Proof.
  unfold geoInputb. rewrite !andb_true_iff. intros (((((((H0 & H1) & H2) & H3) & H4) & H5) & H6) & H7).
  apply wf_latticeb_sound in H0. apply wf_basisb_sound in H1. apply Z.leb_le in H5, H7. apply Z.ltb_lt in H4.
  constructor; auto.
  - apply coords_eqb_sound; exact H2.
  - apply uniformb_sound; exact H3.
  - intros b _. apply clean_of_size; auto.
  - intros t Ht. rewrite forallb_forall in H6. apply Z.eqb_eq. apply H6. exact Ht.
Qed.

(** membership in the reach, by search over the basis *)
Definition reach1b (p : bool) (rep R d : Z) : bool :=
  if p then existsb (fun n => Z.abs (d + n * rep) <=? R) [-1; 0; 1] else d =? 0.
Lemma reach1b_sound p rep R d : reach1b p rep R d = true -> reach1 p rep R d.
Proof.
  unfold reach1b, reach1. destruct p; intros H; [|apply Z.eqb_eq; exact H].
  apply existsb_exists in H. destruct H as (n & _ & H). apply Z.leb_le in H. eauto.
Qed.
Definition window1b (p : bool) (P v : Z) : bool := negb p || ((- P <=? 2 * v) && (2 * v <? P)).
Lemma window1b_sound p P v : window1b p P v = true -> window1 p P v.
Proof. unfold window1b, window1. intros H ->. cbn [negb orb] in H. bh. lia. Qed.
Definition inReachb (L : lattice) (basis : list coord) (R b : Z) (v : coord) : bool :=
  match zget basis b with
  | None => false
  | Some beta =>
      existsb (fun beta' =>
        let i := (cx v - (cx beta' - cx beta)) / lt_unit L in
        let j := (cy v - (cy beta' - cy beta)) / lt_unit L in
        let k := (cz v - (cz beta' - cz beta)) / lt_unit L in
        reach1b (lt_pa L) (lt_ra L) R i && reach1b (lt_pb L) (lt_rb L) R j && reach1b (lt_pc L) (lt_rc L) R k &&
        ceqb v (mkC (cx beta' - cx beta + i * lt_unit L) (cy beta' - cy beta + j * lt_unit L) (cz beta' - cz beta + k * lt_unit L)) &&
        window1b (lt_pa L) (lt_ra L * lt_unit L) (cx v) && window1b (lt_pb L) (lt_rb L * lt_unit L) (cy v) &&
        window1b (lt_pc L) (lt_rc L * lt_unit L) (cz v)) basis
  end.
Lemma inReachb_sound L basis R b v : inReachb L basis R b v = true -> inReach L basis R b v.
Proof.
  unfold inReachb. destruct (zget basis b) as [beta|] eqn:E; [|discriminate]. intros H. apply existsb_exists in H.
  destruct H as (beta' & Hin & H). cbv zeta in H. rewrite !andb_true_iff in H. destruct H as ((((((H1 & H2) & H3) & H4) & H5) & H6) & H7).
  apply In_zget in Hin. destruct Hin as [b' Eb']. apply ceqb_eq in H4.
  exists b', beta, beta'. do 3 eexists. split; [exact E|]. split; [exact Eb'|]. split; [apply reach1b_sound; exact H1|].
  split; [apply reach1b_sound; exact H2|]. split; [apply reach1b_sound; exact H3|]. split; [exact H4|].
  split; [apply window1b_sound; exact H5|]. split; [apply window1b_sound; exact H6|apply window1b_sound; exact H7].
Qed.
Fixpoint sortedb (S : Z) (l : list pentry) : bool :=
  match l with
  | [] => true
  | a :: l' => match l' with [] => true | b :: _ => negb (peLt S b a) && sortedb S l' end
  end.
Lemma isort_of_sorted {A} (lt : A -> A -> bool) l : (forall a b l1 l2, l = l1 ++ a :: b :: l2 -> lt b a = false) -> isort lt l = l.
Proof.
  induction l as [|a l IH]; intros H; [reflexivity|]. unfold isort in *. cbn [fold_right].
  rewrite IH by (intros x y l1 l2 E; apply (H x y (a :: l1) l2); rewrite E; reflexivity).
  destruct l as [|b l]; [reflexivity|]. cbn [sinsert]. rewrite (H a b [] l) by reflexivity. reflexivity.
Qed.
Lemma sortedb_sound S l : sortedb S l = true -> l = isort (peLt S) l.
Proof.
  intros H. symmetry. apply isort_of_sorted. intros a b l1 l2 ->. revert H. induction l1 as [|c l1 IH]; cbn [app sortedb].
  - rewrite andb_true_iff, negb_true_iff. tauto.
  - intros H. apply IH. destruct (l1 ++ a :: b :: l2) eqn:E; [destruct l1; discriminate|]. apply andb_true_iff in H. rewrite <- E in *. tauto.
Qed.
Definition regularb (L : lattice) (basis : list coord) (R W : Z) (p : process) : bool :=
  match pr_basis p with
  | [b] => (0 <=? b) && (b <? lt_nb L) && forallb (fun e => inReachb L basis R b (pe_c e)) (pr_ml p) &&
           forallb (fun e => (pe_d2 e =? cnorm2 (pe_c e)) && (zlen (pe_match e) =? W) && (zlen (pe_upd e) =? W) &&
                             match zget (pe_upd e) 0 with Some v => v =? 0 | None => false end) (pr_ml p) &&
           nodupb ceqb (map pe_c (pr_ml p)) && sortedb (lt_unit L) (pr_ml p)
  | _ => false
  end.
Lemma regularb_sound L basis R W p : regularb L basis R W p = true -> regular L basis R W p.
Proof.
  unfold regularb. destruct (pr_basis p) as [|b [|b' r]] eqn:Eb; try discriminate. rewrite !andb_true_iff.
  intros (((((H1 & H2) & H3) & H4) & H5) & H6). rewrite forallb_forall in H3, H4.
  assert (H4' : forall e, In e (pr_ml p) -> pe_d2 e = cnorm2 (pe_c e) /\ zlen (pe_match e) = W /\ zlen (pe_upd e) = W /\ zget (pe_upd e) 0 = Some 0).
  { intros e He. specialize (H4 e He). rewrite !andb_true_iff in H4. destruct H4 as (((A & B) & C) & D). bh.
    repeat split; auto. destruct (zget (pe_upd e) 0) as [v|]; [|discriminate]. bh. congruence. }
  apply Z.leb_le in H1. apply Z.ltb_lt in H2.
  constructor.
  - exists b. split; [exact Eb|]. split; [lia|]. intros e He. apply inReachb_sound. auto.
  - intros e He. apply H4'; auto.
  - intros e He. destruct (H4' e He) as (_ & A & B & _). auto.
  - intros e He. apply H4'; auto.
  - eapply nodupb_sound; [apply ceqb_refl|exact H5].
  - apply sortedb_sound; exact H6.
Qed.
Definition idmovesOKb (p : process) : bool :=
  nodupb Z.eqb (map snd (pr_idmoves p)) &&
  forallb (fun ab : Z * Z => (0 <=? snd ab) && (snd ab <? zlen (pr_ml p)) && (0 <=? fst ab) && (fst ab <? zlen (pr_ml p))) (pr_idmoves p).
Lemma idmovesOKb_sound p : idmovesOKb p = true -> idmovesOK p.
Proof.
  unfold idmovesOKb. rewrite andb_true_iff. intros [H1 H2]. split; [eapply nodupb_sound; [apply Z.eqb_refl|exact H1]|].
  intros a b Hab. rewrite forallb_forall in H2. specialize (H2 _ Hab). cbn [fst snd] in H2. bh. lia.
Qed.
