(** Proofs: building a model from processes that another model has used; models one after the other. *)
From Verif Require Import PBase SModel SShared PLattice PProcess PMpi PMatcher PPerform PStep PEffect PEvent PCache PRematch PStepInv PBuild PShared PShared2 PShared3.
Open Scope Z_scope.
Open Scope list_scope.

(** ** the shape of the match lists *)
Lemma opt_shape {A B C} (f : A -> B) (g : A -> C) (a a' : option A) : option_map f a = option_map f a' -> (forall x y, f x = f y -> g x = g y) -> option_map g a = option_map g a'.
Proof. destruct a, a'; cbn; intros H G; try discriminate; [|reflexivity]. f_equal. apply G. congruence. Qed.
Definition shapeLt (S : Z) (a b : Z * coord * Z) : bool := pointLt S (fst (fst a)) (snd (fst a)) (fst (fst b)) (snd (fst b)).
Lemma entry_shape L coords types types' center i : map zlen types = map zlen types' ->
  option_map shapeOf (configEntry L coords types center i) = option_map shapeOf (configEntry L coords types' center i).
Proof.
  intros H. unfold configEntry, bucket in *. destruct (zget coords i) as [ci|]; [|reflexivity]. cbn [obind]. assert (X : option_map zlen (zget types i) = option_map zlen (zget types' i)) by (rewrite <- !zget_map, H; reflexivity).
  destruct (zget types i) as [t|], (zget types' i) as [t'|]; try discriminate; [|reflexivity]. cbn [option_map obind] in *. unfold shapeOf. cbn [ce_d2 ce_c ce_types]. congruence.
Qed.
Lemma omap_maps {A B C} (g : B -> C) (f f' : A -> option B) l : (forall a, option_map g (f a) = option_map g (f' a)) -> option_map (map g) (omap f l) = option_map (map g) (omap f' l).
Proof.
  intros H. induction l as [|a l IH]; [reflexivity|]. cbn [omap]. specialize (H a). destruct (f a) as [b|], (f' a) as [b'|]; try discriminate; [|reflexivity]. cbn [option_map obind] in *.
  destruct (omap f l) as [m|], (omap f' l) as [m'|]; try discriminate; [|reflexivity]. cbn [option_map obind map] in *. congruence.
Qed.
Lemma list_shape L cf cf' i idx : cf_coords cf = cf_coords cf' -> map zlen (cf_types cf) = map zlen (cf_types cf') ->
  option_map (map shapeOf) (configMatchList L cf i idx) = option_map (map shapeOf) (configMatchList L cf' i idx).
Proof.
  intros Hc Ht. unfold configMatchList. rewrite Hc. destruct (zget (cf_coords cf') i) as [center|]; [|reflexivity]. cbn [obind].
  pose proof (omap_maps shapeOf _ _ idx (fun k => entry_shape L (cf_coords cf') (cf_types cf) (cf_types cf') center k Ht)) as H.
  destruct (omap _ idx) as [es|], (omap _ idx) as [es'|]; try discriminate; [|reflexivity]. cbn [option_map obind] in *.
  rewrite <- !(isort_map (ceLt (lt_unit L)) (shapeLt (lt_unit L)) shapeOf) by (intros; reflexivity). congruence.
Qed.
Lemma lists_shape L R cf cf' : cf_coords cf = cf_coords cf' -> map zlen (cf_types cf) = map zlen (cf_types cf') ->
  match initMatchLists L R cf, initMatchLists L R cf' with
  | Some a, Some b => forall x, option_map (map shapeOf) (zget (cf_mlists a) x) = option_map (map shapeOf) (zget (cf_mlists b) x)
  | None, None => True | _, _ => False end.
Proof.
  intros Hc Ht. unfold initMatchLists. assert (HL : zlen (cf_types cf) = zlen (cf_types cf')) by (apply (f_equal zlen) in Ht; rewrite !zlen_map in Ht; exact Ht). rewrite HL.
  pose proof (omap_maps (map shapeOf) _ _ (zrange 0 (zlen (cf_types cf') - 1)) (fun k => list_shape L cf cf' k (neighbourIndices L k R) Hc Ht)) as H.
  destruct (omap _ _) as [m|], (omap _ _) as [m'|]; try discriminate; [|exact I]. cbn [obind option_map] in *. intros x. cbn [set_moved set_mlists cf_mlists]. rewrite <- !zget_map. f_equal. congruence.
Qed.
(** ** padding twice *)
Lemma samePoint_self S d c : 0 < S -> samePoint S d c d c = true.
Proof.
  intros H. unfold samePoint. assert (E : distFar S d d = false). { unfold distFar, distGap. apply andb_false_iff. left. apply Z.ltb_ge. nia. }
  rewrite E. unfold coFar. rewrite !Z.sub_diag. cbn [Z.abs]. destruct (Z.ltb_spec S (100000 * 0)); [lia|reflexivity].
Qed.
Lemma insert_twice S cl : 0 < S -> forall pl n, exists m2, insertWildcards S (fst (insertWildcards S pl cl n)) cl n = (fst (insertWildcards S pl cl n), m2) /\
  (forall i, 0 <= i < zlen m2 -> zget m2 i = Some (n + i)) /\ (forall v, In v (snd (insertWildcards S pl cl n)) -> n <= v < n + zlen m2).
Proof.
  intros HS. induction cl as [|c cl IH]; intros pl n; cbn [insertWildcards].
  - exists []. cbn [fst snd]. split; [reflexivity|]. split; [intros i Hi; change (zlen (@nil Z)) with 0 in Hi; lia|intros v []].
  - destruct pl as [|p pl].
    + exists []. cbn [fst snd]. split; [reflexivity|]. split; [intros i Hi; change (zlen (@nil Z)) with 0 in Hi; lia|intros v []].
    + assert (H : forall q pl0, samePoint S (pe_d2 q) (pe_c q) (ce_d2 c) (ce_c c) = true -> let r := insertWildcards S pl0 cl (n + 1) in forall m, (forall v, In v m -> v = n \/ In v (snd r)) ->
               exists m2, (if samePoint S (pe_d2 q) (pe_c q) (ce_d2 c) (ce_c c) then let (l, m) := insertWildcards S (fst r) cl (n + 1) in (q :: l, n :: m) else let (l, m) := insertWildcards S (q :: fst r) cl (n + 1) in (initWildcard c :: l, m)) = (q :: fst r, m2) /\
               (forall i, 0 <= i < zlen m2 -> zget m2 i = Some (n + i)) /\ (forall v, In v m -> n <= v < n + zlen m2)).
      { intros q pl0 Hq r m Hm. rewrite Hq. destruct (IH pl0 (n + 1)) as (m2 & E & A & B). fold r in E, B. rewrite E. exists (n :: m2). split; [reflexivity|]. pose proof (zlen_nonneg m2). split.
        - intros i Hi. rewrite zlen_cons in Hi. rewrite zget_cons. destruct (Z.eqb_spec i 0); [subst; f_equal; lia|]. rewrite A by lia. f_equal. lia.
        - intros v Hv. rewrite zlen_cons. destruct (Hm v Hv) as [->|Hv']; [lia|]. specialize (B v Hv'). lia. }
      destruct (samePoint S (pe_d2 p) (pe_c p) (ce_d2 c) (ce_c c)) eqn:Ep.
      * specialize (H p pl Ep). cbv zeta in H. destruct (insertWildcards S pl cl (n + 1)) as [l m] eqn:El. cbn [fst snd] in *. apply (H (n :: m)). intros v [<-|Hv]; auto.
      * specialize (H (initWildcard c) (p :: pl)). cbn [initWildcard pe_d2 pe_c] in H. specialize (H (samePoint_self _ _ _ HS)). cbv zeta in H. destruct (insertWildcards S (p :: pl) cl (n + 1)) as [l m] eqn:El. cbn [fst snd] in *. apply (H m). auto.
Qed.
Lemma set_ml_same p : set_ml p (pr_ml p) (pr_idmoves p) = p.
Proof. destruct p. reflexivity. Qed.
Lemma expand_twice L cf p q r : 0 < lt_unit L -> expandProcess L cf p = Some q -> pr_ml r = pr_ml q -> pr_basis r = pr_basis q -> pr_idmoves r = pr_idmoves q -> expandProcess L cf r = Some r.
Proof.
  intros HS E Hm Hb Hi. unfold expandProcess in *. rewrite Hm, Hb, Hi. destruct (pr_basis p) as [|b [|b' bs]] eqn:Eb; [injection E as <-; rewrite Eb; reflexivity| |injection E as <-; rewrite Eb; reflexivity].
  ob E as index Ei. ob E as cl Ecl. destruct (insertWildcards (lt_unit L) (pr_ml p) cl 0) as [l mapping] eqn:EI. ob E as idm Eid. injection E as <-. cbn [set_ml pr_ml pr_basis pr_idmoves] in *. rewrite Eb, Ei. cbn [obind]. rewrite Ecl. cbn [obind].
  destruct (insert_twice (lt_unit L) cl HS (pr_ml p) 0) as (m2 & E & A & B). rewrite EI in E, B. cbn [fst snd] in E, B. rewrite E.
  assert (X : omap (fun m : Z * Z => a <- zget m2 (fst m);; b0 <- zget m2 (snd m);; Some (a, b0)) idm = Some idm).
  { assert (G : forall k, In k idm -> (0 <= fst k < zlen m2) /\ (0 <= snd k < zlen m2)).
    { intros k Hk. destruct (omap_In _ _ _ _ Eid Hk) as (k0 & _ & Ek). ob Ek as a Ea. ob Ek as b0 Eb0. injection Ek as <-. cbn [fst snd]. apply zget_In in Ea, Eb0. apply B in Ea, Eb0. lia. }
    clear - A G. induction idm as [|[a b] idm IH]; [reflexivity|]. cbn [omap fst snd]. destruct (G (a, b) (or_introl eq_refl)) as [G1 G2]. cbn [fst snd] in *. rewrite !A by lia. cbn [obind]. rewrite IH by (intros k Hk; apply G; right; exact Hk). reflexivity. }
  rewrite X. cbn [obind]. f_equal. rewrite <- Hm, <- Hi. apply set_ml_same.
Qed.
Lemma shown_fields p q : shownProc (clearSites p) = shownProc (clearSites q) -> pr_ml p = pr_ml q /\ pr_basis p = pr_basis q /\ pr_idmoves p = pr_idmoves q /\ pr_range p = pr_range q.
Proof.
  intros H. split; [exact (f_equal pr_ml H)|]. split; [exact (f_equal pr_basis H)|]. split; [exact (f_equal pr_idmoves H)|exact (f_equal pr_range H)].
Qed.
(** ** building *)
Lemma clear_clear p : clearSites (clearSites p) = clearSites p.
Proof. reflexivity. Qed.
Lemma expand_clear L cf p q : expandProcess L cf (clearSites p) = Some q -> clearSites q = q.
Proof.
  unfold expandProcess. destruct (pr_basis (clearSites p)) as [|b [|]]; intros H; [injection H as <-; reflexivity| |injection H as <-; reflexivity]. ob H as index Ei. ob H as cl Ecl. destruct (insertWildcards _ _ _ _) as [l mp]. ob H as idm Eid. injection H as <-. reflexivity.
Qed.
Lemma maxRange_map it it' : map pr_range (in_procs it) = map pr_range (in_procs it') -> maxRange it = maxRange it'.
Proof.
  unfold maxRange. generalize 1. revert it'. destruct it as [ps]. cbn [in_procs]. intros it'. destruct it' as [qs]. cbn [in_procs]. revert qs. induction ps as [|p ps IH]; intros [|q qs] m H; try discriminate; [reflexivity|]. cbn [map fold_left] in *. injection H as H1 H2. rewrite H1. apply (IH qs). exact H2.
Qed.
(** the processes a model starts with, and those it leaves behind *)
Record usedBy (it0 : interactions) (L : lattice) (cf : config) (it : interactions) : Prop := {
  ub_it : exists ps, it = set_procs it0 ps;
  ub_from : exists cf1 it1, initMatchLists L (maxRange it0) cf = Some cf1 /\ updateProcessMatchLists L cf1 (clearMatching it0) = Some it1 /\ Forall2 restLike (in_procs it1) (in_procs it) }.
Lemma expanded_range L cf it0 it1 : updateProcessMatchLists L cf (clearMatching it0) = Some it1 -> map pr_range (in_procs it1) = map pr_range (in_procs it0) /\ exists ps, it1 = set_procs it0 ps.
Proof.
  unfold updateProcessMatchLists, clearMatching. cbn [set_procs in_wild in_procs]. destruct (in_wild it0).
  - intros H. ob H as ps E. injection H as <-. cbn [set_procs in_procs]. split; [|exists ps; reflexivity]. revert ps E. induction (in_procs it0) as [|p l IH]; intros ps E; cbn [map omap] in E; [injection E as <-; reflexivity|].
    ob E as q Eq. ob E as qs Eqs. injection E as <-. cbn [map]. rewrite (IH _ Eqs). f_equal. apply expand_fields in Eq. destruct Eq as (_ & _ & _ & Eq & _). exact Eq.
  - intros H. injection H as <-. cbn [set_procs in_procs]. split; [rewrite map_map; reflexivity|eexists; reflexivity].
Qed.
Lemma rest_range ps qs : Forall2 restLike ps qs -> map pr_range ps = map pr_range qs.
Proof. induction 1 as [|p q ps qs H F IH]; [reflexivity|]. cbn [map]. rewrite IH. f_equal. apply (shown_fields p q). apply H. Qed.
Lemma used_range it0 L cf it : usedBy it0 L cf it -> maxRange it = maxRange it0.
Proof. intros [_ (cf1 & it1 & _ & E & F)]. apply maxRange_map. rewrite <- (rest_range _ _ F). apply (expanded_range _ _ _ _ E). Qed.
Lemma used_length it0 L cf it : usedBy it0 L cf it -> length (in_procs it) = length (in_procs it0).
Proof. intros [_ (cf1 & it1 & _ & E & F)]. rewrite <- (map_length pr_range), <- (rest_range _ _ F), (proj1 (expanded_range _ _ _ _ E)). apply map_length. Qed.
Lemma expand_all_shape L cf cf' it : (forall x, option_map (map shapeOf) (zget (cf_mlists cf) x) = option_map (map shapeOf) (zget (cf_mlists cf') x)) -> updateProcessMatchLists L cf it = updateProcessMatchLists L cf' it.
Proof. intros H. unfold updateProcessMatchLists. rewrite (omap_same (expandProcess L cf) (expandProcess L cf')); [reflexivity|]. intros p. apply expandProcess_shape. exact H. Qed.
Lemma reexpand it0 L cf1 it1 it : 0 < lt_unit L -> (exists ps, it = set_procs it0 ps) -> updateProcessMatchLists L cf1 (clearMatching it0) = Some it1 -> Forall2 restLike (in_procs it1) (in_procs it) -> updateProcessMatchLists L cf1 (clearMatching it) = Some (clearMatching it).
Proof.
  intros HS [ps0 ->] E F. unfold updateProcessMatchLists in *. unfold clearMatching in *. cbn [set_procs in_wild in_procs] in *. destruct (in_wild it0); [|reflexivity]. ob E as ps Eps. injection E as <-. cbn [set_procs in_procs] in *.
  assert (X : omap (expandProcess L cf1) (map clearSites ps0) = Some (map clearSites ps0)); [|rewrite X; reflexivity]. revert ps Eps F. revert ps0. induction (in_procs it0) as [|p l IH]; intros ps0 ps Eps F.
  - cbn in Eps. injection Eps as <-. inversion F; subst. reflexivity.
  - cbn [map omap] in Eps. ob Eps as q Eq. ob Eps as qs Eqs. injection Eps as <-. inversion F as [|? r ? rs HR HF]; subst. cbn [map omap]. destruct (shown_fields _ _ (proj1 HR)) as (A & B & C & _).
    rewrite (expand_twice L cf1 _ q (clearSites r) HS Eq); [|symmetry; exact A|symmetry; exact B|symmetry; exact C]. cbn [obind]. rewrite (IH _ _ Eqs HF). reflexivity.
Qed.
Lemma F2_map {A B C D} (R : C -> D -> Prop) (f : A -> C) (g : B -> D) l l' : Forall2 (fun a b => R (f a) (g b)) l l' -> Forall2 R (map f l) (map g l').
Proof. induction 1; cbn [map]; constructor; auto. Qed.
Lemma map_same_local {A} (f : A -> A) l : Forall (fun a => f a = a) l -> map f l = l.
Proof. induction 1; cbn [map]; congruence. Qed.
Lemma expanded_clear L cf it0 it1 : updateProcessMatchLists L cf (clearMatching it0) = Some it1 -> map clearSites (in_procs it1) = in_procs it1.
Proof.
  unfold updateProcessMatchLists, clearMatching. cbn [set_procs in_wild in_procs]. destruct (in_wild it0); intros H.
  - ob H as ps E. injection H as <-. cbn [set_procs in_procs]. apply map_same_local. apply Forall_forall. intros q Hq. destruct (omap_In _ _ _ _ E Hq) as (p & Hp & Eq). apply in_map_iff in Hp. destruct Hp as (p0 & <- & _). eapply expand_clear; eauto.
  - injection H as <-. cbn [set_procs in_procs]. rewrite map_map. reflexivity.
Qed.
Theorem build_like it0 L cf it cf' ranks hash : 0 < lt_unit L -> usedBy it0 L cf it -> cf_coords cf = cf_coords cf' -> map zlen (cf_types cf) = map zlen (cf_types cf') ->
  orel likeMd (mkLatticeModel ranks hash L cf' it) (mkLatticeModel ranks hash L cf' it0).
Proof.
  intros HS UB Hc Ht. pose proof (used_range _ _ _ _ UB) as HR. pose proof (used_length _ _ _ _ UB) as HL. destruct UB as [EI (cf1 & it1 & E1 & E2 & F)].
  unfold mkLatticeModel, calculateInitialMatching. cbn [md_lat md_cf md_in md_mt]. rewrite HR, HL. pose proof (lists_shape L (maxRange it0) _ _ Hc Ht) as SH. rewrite E1 in SH. destruct (initMatchLists L (maxRange it0) cf') as [cf2|]; [|contradiction]. cbn [obind].
  rewrite <- !(expand_all_shape L _ _ _ SH). rewrite E2, (reexpand _ _ _ _ _ HS EI E2 F). cbn [obind].
  assert (LK : likeIt (clearMatching it) it1).
  { assert (F2 : Forall2 alike (in_procs (clearMatching it)) (in_procs it1)).
    { rewrite <- (expanded_clear _ _ _ _ E2). unfold clearMatching. cbn [set_procs in_procs]. apply F2_map. revert F. clear. induction 1 as [|p q ps qs H F IH]; constructor; [apply alike_sym; exact H|exact IH]. }
    destruct EI as [ps ->]. destruct (proj2 (expanded_range _ _ _ _ E2)) as [ps1 ->]. split; [|exact F2]. change (clearMatching (set_procs it0 ps)) with (set_procs it0 (map clearSites ps)). apply (shownIt_set it0 it0); [reflexivity|]. apply F2_shown. exact F2. }
  pose proof (calc_like L (mkMatcher ranks hash (length (cf_coords cf')) (length (in_procs it0))) _ _ cf2 (zrange 0 (zlen (cf_elements cf2) - 1)) LK) as HC. destruct (calculateMatching L _ (clearMatching it) cf2 _) as [[[m i1] c1]|], (calculateMatching L _ it1 cf2 _) as [[[m' i1'] c1']|]; try contradiction; [|exact I].
  cbn [orel fst snd] in HC. destruct HC as (<- & LI & <-). cbn [obind orel md_lat md_cf md_in md_mt]. constructor; try reflexivity. apply like_table. exact LI.
Qed.
Lemma calc_tail L m it cf idx m' it' cf' : calculateMatching L m it cf idx = Some (m', it', cf') -> Forall2 restLike (in_procs it) (in_procs it').
Proof. intros H. apply rest_of; [eapply calc_rest; eauto|eapply calc_affs; eauto]. Qed.
Theorem built_used ranks hash L cf it0 md : mkLatticeModel ranks hash L cf it0 = Some md -> usedBy it0 L cf (set_procs it0 (in_procs (md_in md))).
Proof.
  unfold mkLatticeModel, calculateInitialMatching. cbn [md_lat md_cf md_in md_mt]. intros H. ob H as md1 H1. injection H as <-. ob H1 as cf1 E1. ob H1 as it1 E2. ob H1 as r E3. destruct r as [[m it2] cf2]. injection H1 as <-. cbn [md_in updateProbabilityTable set_table in_procs set_procs].
  constructor; [eexists; reflexivity|]. exists cf1, it1. split; [exact E1|]. split; [exact E2|]. cbn [set_procs in_procs]. eapply calc_tail; eauto.
Qed.
Theorem used_again it0 L cf it cf' ranks hash md : 0 < lt_unit L -> usedBy it0 L cf it -> cf_coords cf = cf_coords cf' -> map zlen (cf_types cf) = map zlen (cf_types cf') ->
  mkLatticeModel ranks hash L cf' it = Some md -> usedBy it0 L cf (set_procs it (in_procs (md_in md))).
Proof.
  intros HS UB Hc Ht. pose proof (used_range _ _ _ _ UB) as HR. destruct UB as [EI (cf1 & it1 & E1 & E2 & F)].
  unfold mkLatticeModel, calculateInitialMatching. cbn [md_lat md_cf md_in md_mt]. rewrite HR. pose proof (lists_shape L (maxRange it0) _ _ Hc Ht) as SH. rewrite E1 in SH. destruct (initMatchLists L (maxRange it0) cf') as [cf2|]; [|contradiction]. cbn [obind].
  rewrite <- !(expand_all_shape L _ _ _ SH). rewrite (reexpand _ _ _ _ _ HS EI E2 F). cbn [obind]. intros H. ob H as md1 H1. injection H as <-. ob H1 as r E3. destruct r as [[m it2] cf3]. injection H1 as <-. cbn [md_in updateProbabilityTable set_table in_procs set_procs].
  constructor; [destruct EI as [ps ->]; eexists; reflexivity|]. exists cf1, it1. split; [exact E1|]. split; [exact E2|]. cbn [set_procs in_procs]. apply (F2_trans _ rest_trans _ (in_procs (clearMatching it))); [|eapply calc_tail; eauto].
  apply (F2_trans _ rest_trans _ (in_procs it)); [exact F|]. unfold clearMatching. cbn [set_procs in_procs]. clear. induction (in_procs it) as [|p l IH]; constructor; [apply alike_refl|exact IH].
Qed.
Theorem used_step it0 L cf it md u1 u2 md' : usedBy it0 L cf it -> singleStep (withProcs md (in_procs it)) u1 u2 = Some md' -> usedBy it0 L cf (set_procs it (in_procs (md_in md'))).
Proof.
  intros [EI (cf1 & it1 & E1 & E2 & F)] H. apply step_rest in H. cbn [withProcs md_in set_procs in_procs] in H. constructor; [destruct EI as [ps ->]; eexists; reflexivity|]. exists cf1, it1. split; [exact E1|]. split; [exact E2|]. cbn [set_procs in_procs]. apply (F2_trans _ rest_trans _ _ _ F H).
Qed.
