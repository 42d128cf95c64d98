(** The order in which positions are listed does not matter. *)
From Coq Require Import Sorted.
From Verif Require Import PBase SModel SGeo SEvent SBuild SPlain SStep SBucket SOrder PLattice PProcess PMatcher PPerform PStep PGeo PPossible PRun PEffect PRematch PEvent PBuild PPlain PBucket.
Open Scope string_scope.
Open Scope list_scope.
Open Scope Z_scope.

(** ** sorting *)
Section Sorting.
Context {A : Type} (pos : A -> coord) (d2 : A -> Z) (S : Z) (HS : 0 < S) (c0 : coord).
Notation lt := (fun a b => pointLt S (d2 a) (pos a) (d2 b) (pos b)).
Notation rel a := (csub (pos a) c0).
Definition apart (l : list A) : Prop := cleanPts S (fun v => exists a, In a l /\ v = rel a).

Lemma pointLt_rel l a b : apart l -> In a l -> In b l -> d2 a = cnorm2 (rel a) -> d2 b = cnorm2 (rel b) -> lt a b = clt (rel a) (rel b).
Proof using HS.
  intros HA Ha Hb Ea Eb. unfold pointLt, clt. rewrite Ea, Eb. destruct (Z.eqb_spec (cnorm2 (rel a)) (cnorm2 (rel b))) as [E|E].
  - rewrite E, distNear_refl by exact HS. unfold csub. cbn [cx cy cz].
    assert (Q : forall x y z, (x - z <? y - z) = (x <? y)) by (intros x y z; destruct (Z.ltb_spec (x - z) (y - z)), (Z.ltb_spec x y); try reflexivity; lia). rewrite !Q. reflexivity.
  - rewrite distFar_notNear; [reflexivity|]. apply HA; [exists a; auto|exists b; auto|exact E].
Qed.
Lemma rel_inj a b : rel a = rel b -> pos a = pos b.
Proof using. unfold csub. destruct (pos a) as [x y z], (pos b) as [x' y' z']. cbn [cx cy cz]. intros H. injection H as H1 H2 H3. f_equal; lia. Qed.

Lemma isort_order l m : Permutation l m -> apart l -> NoDup (map pos l) -> (forall a, In a l -> d2 a = cnorm2 (rel a)) -> isort lt l = isort lt m.
Proof using HS.
  intros HP HA ND HD. set (D := fun a => In a l).
  assert (HL : forall a b, D a -> D b -> lt a b = clt (rel a) (rel b)) by (intros a b Ha Hb; apply (pointLt_rel l); auto).
  assert (HSt : forall k, Forall D k -> StronglySorted (nlt lt) (isort lt k)).
  { intros k Hk. apply isort_sorted with (D := D); auto.
    - intros x y Hx Hy. rewrite !HL by auto. apply clt_asym.
    - intros x y z Hx Hy Hz. unfold nlt. rewrite !HL by auto. intros H1 H2. eapply cltn_trans; eauto. }
  apply (sorted_perm_eq (nlt lt)).
  - intros x y Hx Hy H1 H2. apply isort_In in Hx. apply isort_In in Hy. unfold nlt in H1, H2. rewrite HL in H1, H2 by auto.
    pose proof (rel_inj x y (eq_sym (clt_total _ _ H1 H2))) as E. apply In_zget in Hx, Hy. destruct Hx as [i Ei], Hy as [j Ej].
    assert (i = j); [|congruence]. eapply (NoDup_zget_inj (map pos l)); [exact ND| |]; rewrite zget_map, ?Ei, ?Ej; cbn [option_map]; [reflexivity|congruence].
  - apply HSt. apply Forall_forall. auto.
  - apply HSt. apply Forall_forall. intros a Ha. apply (Permutation_in _ (Permutation_sym HP)). exact Ha.
  - rewrite !isort_perm. exact HP.
Qed.
End Sorting.

(** ** what the constructor makes of the entries *)
Definition rangeOf (S : Z) (es : list pentry) : Z :=
  fold_left (fun m e => Z.max (cmpRange S (cz (pe_c e))) (Z.max (cmpRange S (cy (pe_c e))) (Z.max (cmpRange S (cx (pe_c e))) m))) es 1.
Definition cutOf (es : list pentry) : Z := fold_left (fun m e => Z.max (pe_d2 e) m) es 0.
Definition affOf (es : list pentry) : list Z := map (fun _ => 0) (filter (fun e => existsb (fun v => negb (v =? 0)) (pe_upd e)) es).
Lemma mlFold_exact S origin coords types upd idx : forall acc acc', ofold (mlStep S origin coords types upd) idx acc = Some acc' ->
  exists es, ml_list acc' = ml_list acc ++ es /\
    ml_range acc' = fold_left (fun m e => Z.max (cmpRange S (cz (pe_c e))) (Z.max (cmpRange S (cy (pe_c e))) (Z.max (cmpRange S (cx (pe_c e))) m))) es (ml_range acc) /\
    ml_cut2 acc' = fold_left (fun m e => Z.max (pe_d2 e) m) es (ml_cut2 acc) /\ ml_aff acc' = ml_aff acc ++ affOf es.
Proof.
  induction idx as [|k idx IH]; intros acc acc' H; cbn [ofold] in H.
  - inversion H; subst. exists []. rewrite !app_nil_r. repeat split.
  - ob H as a1 E. unfold mlStep in E. ob E as c Ec. ob E as t Et. ob E as u Eu. inversion E; subst a1; clear E.
    destruct (IH _ _ H) as (es & A & B & C & D). cbn [ml_list ml_aff ml_range ml_cut2] in *.
    exists (mkPE false (cnorm2 (csub c origin)) c czero t u :: es). split; [rewrite A, <- app_assoc; reflexivity|].
    split; [exact B|]. split; [exact C|]. rewrite D. unfold affOf. cbn [filter pe_upd]. destruct (existsb _ u); [rewrite <- app_assoc; reflexivity|reflexivity].
Qed.
Lemma fold_max_perm {A} (f : A -> Z -> Z) (HC : forall a b m, f a (f b m) = f b (f a m)) l m : Permutation l m -> forall z, fold_left (fun k a => f a k) l z = fold_left (fun k a => f a k) m z.
Proof. induction 1; intros z; cbn [fold_left]; auto; [rewrite HC; reflexivity|etransitivity; eauto]. Qed.
Lemma rangeOf_perm S l m : Permutation l m -> rangeOf S l = rangeOf S m.
Proof. intros H. unfold rangeOf. apply (fold_max_perm (fun e m => Z.max (cmpRange S (cz (pe_c e))) (Z.max (cmpRange S (cy (pe_c e))) (Z.max (cmpRange S (cx (pe_c e))) m)))); [intros; lia|exact H]. Qed.
Lemma cutOf_perm l m : Permutation l m -> cutOf l = cutOf m.
Proof. intros H. unfold cutOf. apply (fold_max_perm (fun e m => Z.max (pe_d2 e) m)); [intros; lia|exact H]. Qed.
Lemma affOf_perm l m : Permutation l m -> affOf l = affOf m.
Proof.
  intros H. unfold affOf. assert (G : forall k : list pentry, map (fun _ => 0) k = repeat 0 (length k)) by (induction k as [|? ? IH]; cbn; congruence).
  rewrite !G. f_equal. apply Permutation_length. apply filter_perm. exact H.
Qed.
(** entries up to their moves *)
Definition base (e : pentry) : pentry := mkPE false (pe_d2 e) (pe_c e) czero (pe_match e) (pe_upd e).
Lemma fold_map {A B C} (g : A -> B) (f : C -> B -> C) l : forall z, fold_left f (map g l) z = fold_left (fun c a => f c (g a)) l z.
Proof. induction l as [|a l IH]; intros z; cbn [map fold_left]; auto. Qed.
Lemma rangeOf_base S l : rangeOf S (map base l) = rangeOf S l. Proof. unfold rangeOf. rewrite fold_map. reflexivity. Qed.
Lemma cutOf_base l : cutOf (map base l) = cutOf l. Proof. unfold cutOf. rewrite fold_map. reflexivity. Qed.
Lemma affOf_base l : affOf (map base l) = affOf l.
Proof. unfold affOf. induction l as [|e l IH]; [reflexivity|]. cbn [map filter base pe_upd]. destruct (existsb _ (pe_upd e)); cbn [map]; congruence. Qed.

Definition processOf (S : Z) (l : list pentry) (rate : Z) (basis : list Z) (number : Z) (bucket : bool) : process :=
  mkPR false false number (rangeOf S l) rate (cutOf l) [] [] [] [] (isort (peLt S) l) (affOf l) basis (idMovesOf S (isort (peLt S) l)) bucket 0.
Lemma placeMoves_base l origins vectors l' : placeMoves l origins vectors = Some l' -> map base l' = map base l.
Proof.
  unfold placeMoves. generalize (zrange 0 (zlen origins - 1)). intros idx. revert l. induction idx as [|i idx IH]; intros l H; cbn [ofold] in H; [congruence|].
  ob H as l1 E. ob E as o Eo. ob E as v Ev. ob E as e Ee. rewrite (IH _ H). apply zget_ext. intros j. rewrite !zget_map. rewrite (zset_get _ _ _ _ j E). destruct (Z.eqb_spec j o) as [->|]; [rewrite Ee; reflexivity|reflexivity].
Qed.
Lemma mkProcess_of S first second rate basis origins vectors number p : mkProcess S first second rate basis origins vectors number = Some p ->
  exists l, p = processOf S l rate basis number (negb (zlen (cf_update second) =? 0)).
Proof.
  intros H. unfold mkProcess in H. ob H as acc Eacc. ob H as l El. inversion H; subst p; clear H. exists l. unfold processOf.
  unfold configurationsToMatchList in Eacc. ob Eacc as upd Eupd. ob Eacc as origin Eor. destruct (mlFold_exact _ _ _ _ _ _ _ _ Eacc) as (es & A & B & C & D). cbn [ml_list ml_aff ml_range ml_cut2 app] in A, B, C, D.
  pose proof (placeMoves_base _ _ _ _ El) as EB. rewrite A in EB.
  replace (ml_range acc) with (rangeOf S l) by (rewrite <- rangeOf_base, EB, rangeOf_base; symmetry; exact B).
  replace (ml_cut2 acc) with (cutOf l) by (rewrite <- cutOf_base, EB, cutOf_base; symmetry; exact C).
  replace (ml_aff acc) with (affOf l) by (rewrite <- affOf_base, EB, affOf_base; symmetry; exact D). reflexivity.
Qed.
(** so all its fields follow from the sorted list *)
Lemma mkProcess_fields S first second rate basis origins vectors number p : mkProcess S first second rate basis origins vectors number = Some p ->
  p = mkPR false false number (rangeOf S (pr_ml p)) rate (cutOf (pr_ml p)) [] [] [] [] (pr_ml p) (affOf (pr_ml p)) basis (idMovesOf S (pr_ml p)) (negb (zlen (cf_update second) =? 0)) 0.
Proof.
  intros H. destruct (mkProcess_of _ _ _ _ _ _ _ _ _ H) as [l ->]. unfold processOf. cbn [pr_ml]. pose proof (isort_perm (peLt S) l) as HP.
  rewrite (rangeOf_perm S _ _ HP), (cutOf_perm _ _ HP), (affOf_perm _ _ HP). reflexivity.
Qed.

(** ** rows *)
Lemma Forall2_fun {A B} {R : A -> B -> Prop} (HF : forall a b b', R a b -> R a b' -> b = b') l es fs : Forall2 R l es -> Forall2 R l fs -> es = fs.
Proof. intros H. revert fs. induction H; intros fs H2; inversion H2; subst; [reflexivity|]. f_equal; eauto. Qed.
Lemma perm_related {A B} (R : A -> B -> Prop) (HF : forall a b b', R a b -> R a b' -> b = b') (l m : list A) : Permutation l m ->
  forall es fs, Forall2 R l es -> Forall2 R m fs -> Permutation es fs.
Proof.
  induction 1; intros es fs H1 H2.
  - inversion H1; inversion H2; subst. constructor.
  - inversion H1; inversion H2; subst. match goal with A : R x ?y, B : R x ?z |- _ => rewrite (HF _ _ _ A B) end. constructor. auto.
  - inversion H1 as [|? ? ? ? A1 A2]; subst. inversion A2 as [|? ? ? ? A3 A4]; subst. inversion H2 as [|? ? ? ? B1 B2]; subst. inversion B2 as [|? ? ? ? B3 B4]; subst.
    rewrite (HF _ _ _ A1 B3), (HF _ _ _ A3 B1), (Forall2_fun HF _ _ _ A4 B4). constructor.
  - assert (HX : exists gs, Forall2 R l' gs).
    { clear -H H1. revert es H1. induction H; intros es H1.
      - inversion H1; subst. exists []. constructor.
      - inversion H1; subst. destruct (IHPermutation _ H5) as [gs G]. exists (y :: gs). constructor; auto.
      - inversion H1 as [|? ? ? ? A1 A2]; subst. inversion A2 as [|? ? ? ? A3 A4]; subst. eexists. apply Forall2_cons; [exact A3|]. apply Forall2_cons; [exact A1|exact A4].
      - destruct (IHPermutation1 _ H1) as [gs G]. apply (IHPermutation2 _ G). }
    destruct HX as [gs G]. transitivity gs; auto.
Qed.
Lemma Forall2_zget {A B} (R : A -> B -> Prop) l : forall m, zlen m = zlen l -> (forall i a b, zget l i = Some a -> zget m i = Some b -> R a b) -> Forall2 R l m.
Proof.
  induction l as [|a l IH]; intros [|b m] HL H; [constructor|rewrite zlen_cons in HL; pose proof (zlen_nonneg m); cbn in HL; lia|rewrite zlen_cons in HL; pose proof (zlen_nonneg l); cbn in HL; lia|].
  constructor; [apply (H 0); reflexivity|]. apply IH; [rewrite !zlen_cons in HL; lia|]. intros i x y Hx Hy. apply (H (i + 1)); rewrite zget_cons; destruct (Z.eqb_spec (i + 1) 0) as [E|E]; try (replace (i + 1 - 1) with i by lia; assumption);
  apply zget_range in Hx; lia.
Qed.
Lemma lists_eq (l m : list Z) W : zlen l = W -> zlen m = W -> (forall k a b, zget l k = Some a -> zget m k = Some b -> a = b) -> l = m.
Proof.
  intros H1 H2 H. apply zget_ext. intros k. destruct (zget l k) as [a|] eqn:E.
  - destruct (zget_lt m k) as [b Eb]; [rewrite H2, <- H1; eapply zget_range; eauto|]. rewrite Eb. f_equal. eapply H; eauto.
  - symmetry. apply zget_None. apply zget_None in E. rewrite H2, <- H1. exact E.
Qed.
Definition entryOfRow (pt : tmap) (c0 : coord) (r : row) (e : pentry) : Prop := entryFor pt r e /\ pe_d2 e = cnorm2 (csub (rw_c r) c0).
Lemma entryOfRow_fun pt c0 r e e' : entryOfRow pt c0 r e -> entryOfRow pt c0 r e' -> e = e'.
Proof.
  intros [[A1 (kb & ka & A2 & A3 & [A4 A5] & A6 & A7) A8] A9] [[B1 (kb' & ka' & B2 & B3 & [B4 B5] & B6 & B7) B8] B9].
  assert (kb' = kb) by congruence. assert (ka' = ka) by congruence. subst kb' ka'.
  assert (EM : pe_match e = pe_match e').
  { eapply lists_eq; [exact A4|exact B4|]. intros k a b Ha Hb. rewrite (A5 _ _ Ha), (B5 _ _ Hb). reflexivity. }
  assert (EU : pe_upd e = pe_upd e').
  { eapply lists_eq; [exact A6|exact B6|]. intros k a b Ha Hb. rewrite (A7 _ _ Ha), (B7 _ _ Hb). reflexivity. }
  destruct e as [e1 e2 e3 e4 e5 e6], e' as [f1 f2 f3 f4 f5 f6]. cbn [pe_hasmove pe_d2 pe_c pe_move pe_match pe_upd] in *. destruct (rw_move r); destruct A8, B8; subst; congruence.
Qed.
Definition entryOfBRow (pt : tmap) (c0 : coord) (r : brow) (e : pentry) : Prop := entryForB pt r e /\ pe_d2 e = cnorm2 (csub (br_c r) c0).
Lemma entryOfBRow_fun pt c0 r e e' : wfPT pt -> entryOfBRow pt c0 r e -> entryOfBRow pt c0 r e' -> e = e'.
Proof.
  intros WP [[A1 A2 A3 A4 A5 [A6 A7]] A9] [[B1 B2 B3 B4 B5 [B6 B7]] B9].
  assert (HK : forall k, 0 <= k < zlen pt -> exists s, tfind pt s = Some k) by (intros k Hk; apply kind_name; auto).
  assert (EM : pe_match e = pe_match e').
  { eapply lists_eq; [exact A2|exact B2|]. intros k a b Ha Hb. apply zget_range in Ha as Hr. rewrite A2 in Hr. destruct (HK k Hr) as [s Es]. specialize (A3 s k Es). specialize (B3 s k Es). congruence. }
  assert (EU : pe_upd e = pe_upd e').
  { eapply lists_eq; [exact A4|exact B4|]. intros k a b Ha Hb. apply zget_range in Ha as Hr. rewrite A4 in Hr. destruct (HK k Hr) as [s Es]. specialize (A5 s k Es). specialize (B5 s k Es). congruence. }
  destruct e as [e1 e2 e3 e4 e5 e6], e' as [f1 f2 f3 f4 f5 f6]. cbn [pe_hasmove pe_d2 pe_c pe_move pe_match pe_upd] in *. subst. congruence.
Qed.

Section Rows.
Context (S : Z) (HS : 0 < S) (c0 : coord).
Lemma sorted_same es fs cs : Permutation es fs -> Permutation (map pe_c es) cs -> clearlyApart S c0 cs -> NoDup cs -> (forall e, In e es -> pe_d2 e = cnorm2 (csub (pe_c e) c0)) ->
  isort (peLt S) es = isort (peLt S) fs.
Proof using HS.
  intros HP HC HA ND HD. apply (isort_order pe_c pe_d2 S HS c0 es fs HP); auto.
  - intros a b (e & He & ->) (f & Hf & ->). apply HA; [exists (pe_c e)|exists (pe_c f)]; split; auto; apply (Permutation_in _ HC); apply in_map; assumption.
  - apply (Permutation_NoDup (Permutation_sym HC) ND).
Qed.
End Rows.
