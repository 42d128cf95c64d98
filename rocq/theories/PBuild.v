(** Proofs: what the process constructor builds. *)
From Verif Require Import PBase SModel SGeo SEvent SBuild PLattice PPerform PEffect PEvent.
Open Scope Z_scope.
Open Scope list_scope.

(** ** type tables *)
Lemma fold_max_ge (l : list (string * Z)) : forall m, m <= fold_left (fun m kv => Z.max m (snd kv)) l m /\ (forall v, In v (map snd l) -> v <= fold_left (fun m kv => Z.max m (snd kv)) l m).
Proof.
  induction l as [|[s v] l IH]; intros m; cbn [fold_left map]; [split; [lia|intros ? []]|].
  destruct (IH (Z.max m (snd (s, v)))) as [A B]. cbn [snd] in *. split; [lia|]. intros w [<-|Hw]; [lia|apply B; exact Hw].
Qed.
Lemma fold_max_le (l : list (string * Z)) n : forall m, m <= n -> (forall v, In v (map snd l) -> v <= n) -> fold_left (fun m kv => Z.max m (snd kv)) l m <= n.
Proof.
  induction l as [|[s v] l IH]; intros m Hm H; cbn [fold_left]; [exact Hm|]. apply IH.
  - cbn [snd]. specialize (H v (or_introl eq_refl)). lia.
  - intros w Hw. apply H. right; exact Hw.
Qed.
Lemma maxType_wf pt : wfPT pt -> maxType pt + 1 = zlen pt /\ 1 <= zlen pt.
Proof.
  intros (_ & HP & H0). assert (H1 : 1 <= zlen pt) by (destruct pt; [discriminate|rewrite zlen_cons; pose proof (zlen_nonneg pt); lia]). split; [|exact H1].
  unfold maxType. destruct (fold_max_ge pt 0) as [A B]. specialize (B (zlen pt - 1)).
  assert (zlen pt - 1 <= fold_left (fun m kv => Z.max m (snd kv)) pt 0) by (apply B; eapply Permutation_in; [apply Permutation_sym; exact HP|]; apply In_zrange; lia).
  assert (fold_left (fun m kv => Z.max m (snd kv)) pt 0 <= zlen pt - 1).
  { apply fold_max_le; [lia|]. intros v Hv. eapply Permutation_in in Hv; [|exact HP]. apply In_zrange in Hv. lia. }
  lia.
Qed.
Lemma ofold_zset_get {A} (pt : list (A * Z)) : forall names names', ofold (fun names kv => zset names (snd kv) (fst kv)) pt names = Some names' -> NoDup (map snd pt) ->
  zlen names' = zlen names /\ (forall s k, In (s, k) pt -> zget names' k = Some s) /\ (forall k, ~ In k (map snd pt) -> zget names' k = zget names k).
Proof.
  induction pt as [|[s k] pt IH]; intros names names' H ND; cbn [ofold] in H.
  - inversion H; subst. split; [reflexivity|]. split; [intros ? ? []|auto].
  - ob H as n1 E. cbn [map] in ND. inversion ND as [|? ? Hn ND']; subst. cbn [fst snd] in E. destruct (IH _ _ H ND') as (A1 & B & C).
    split; [rewrite A1; eapply zset_len; eauto|]. split.
    + intros s' k' [Heq|Hin]; [|auto]. inversion Heq; subst. rewrite C by exact Hn. rewrite (zset_get _ _ _ _ k' E), Z.eqb_refl. reflexivity.
    + intros k' Hk. cbn [map snd] in Hk. rewrite C by (intros Hc; apply Hk; right; exact Hc). rewrite (zset_get _ _ _ _ k' E).
      destruct (Z.eqb_spec k' k) as [->|]; [exfalso; apply Hk; left; reflexivity|reflexivity].
Qed.
Lemma wfPT_nodup pt : wfPT pt -> NoDup (map snd pt).
Proof. intros (_ & HP & _). eapply Permutation_NoDup; [apply Permutation_sym; exact HP|apply NoDup_zrange]. Qed.
Lemma tfind_In pt s k : tfind pt s = Some k -> In (s, k) pt.
Proof.
  induction pt as [|[s' k'] pt IH]; cbn [tfind]; [discriminate|]. destruct (String.eqb_spec s' s) as [->|]; intros H; [inversion H; left; reflexivity|right; auto].
Qed.
Lemma In_tfind pt s k : NoDup (map fst pt) -> In (s, k) pt -> tfind pt s = Some k.
Proof.
  induction pt as [|[s' k'] pt IH]; intros ND H; [destruct H|]. destruct H as [H|H]; cbn [tfind map fst] in *; inversion ND as [|? ? Hn ND']; subst.
  - inversion H; subst. rewrite String.eqb_refl. reflexivity.
  - destruct (String.eqb_spec s' s) as [->|]; [|auto]. exfalso. apply Hn. change s with (fst (s, k)). apply in_map. exact H.
Qed.
Lemma tfind_range pt s k : wfPT pt -> tfind pt s = Some k -> 0 <= k < zlen pt.
Proof.
  intros (_ & HP & _) H. apply tfind_In in H. apply (in_map snd) in H. eapply Permutation_in in H; [|exact HP]. apply In_zrange in H. cbn [snd] in H. lia.
Qed.
Lemma tfind_inj pt s s' k : wfPT pt -> tfind pt s = Some k -> tfind pt s' = Some k -> s = s'.
Proof.
  intros WP H1 H2. pose proof (wfPT_nodup _ WP) as ND. apply tfind_In in H1, H2. clear WP. revert ND H1 H2. induction pt as [|[a b] pt IH]; intros ND H1 H2; [destruct H1|].
  cbn [map snd] in ND. inversion ND as [|? ? Hn ND']; subst. destruct H1 as [H1|H1], H2 as [H2|H2].
  - congruence.
  - inversion H1; subst. exfalso. apply Hn. change k with (snd (s', k)). apply in_map. exact H2.
  - inversion H2; subst. exfalso. apply Hn. change k with (snd (s, k)). apply in_map. exact H1.
  - apply IH; auto.
Qed.
Lemma names_wf pt names : wfPT pt -> typeNamesOf pt = Some names ->
  zlen names = zlen pt /\ forall s k, tfind pt s = Some k -> zget names k = Some s.
Proof.
  intros WP H. unfold typeNamesOf in H. destruct (maxType_wf _ WP) as [HM H1]. rewrite HM in H.
  destruct (ofold_zset_get _ _ _ H (wfPT_nodup _ WP)) as (A & B & _). split.
  - rewrite A. unfold zlen at 1. rewrite repeat_length. pose proof (zlen_nonneg pt). lia.
  - intros s k Hk. apply B. apply tfind_In. exact Hk.
Qed.

(** ** occupation of a site with one particle *)
Lemma zset_Some {A} (l : list A) i a : 0 <= i < zlen l -> exists l', zset l i a = Some l'.
Proof. intros H. unfold zset. destruct (Z.leb_spec 0 i), (Z.ltb_spec i (zlen l)); cbn [andb]; try lia. eauto. Qed.
Lemma bucketOf_one pt size s t k : tfind pt s = Some k -> bucketOf pt size [s] = Some t -> unitAt (Z.max 0 size) k t /\ 0 <= k < size.
Proof.
  intros Ek H. unfold bucketOf in H. cbn [ofold] in H. ob H as t1 E. inversion H; subst t1; clear H. rewrite Ek in E. cbn [obind] in E. ob E as v Ev.
  apply zget_range in Ev as Hr. unfold zlen in Hr. rewrite repeat_length in Hr.
  rewrite zget_repeat in Ev by lia. inversion Ev; subst v. split; [|lia]. split.
  - rewrite (zset_len _ _ _ _ E). unfold zlen. rewrite repeat_length. lia.
  - intros j a Ej. rewrite (zset_get _ _ _ _ j E) in Ej. destruct (j =? k); [inversion Ej; lia|].
    apply zget_range in Ej as Hj. unfold zlen in Hj. rewrite repeat_length in Hj. rewrite zget_repeat in Ej by lia. inversion Ej; reflexivity.
Qed.

Record cfgInfo (coords : list coord) (els : list (list string)) (pt : tmap) (cf : config) : Prop := {
  ci_coords : cf_coords cf = coords;
  ci_elements : cf_elements cf = els;
  ci_aidcoords : cf_aidcoords cf = coords;
  ci_aid : cf_aid cf = zrange 0 (zlen coords - 1);
  ci_update : cf_update cf = [];
  ci_ptypes : cf_ptypes cf = pt;
  ci_names : typeNamesOf pt = Some (cf_names cf);
  ci_types : omap (bucketOf pt (zlen (cf_names cf))) els = Some (cf_types cf);
  ci_aidel : forall i, 0 <= i < zlen coords -> exists e s, zget els i = Some e /\ zget e 0 = Some s /\ zget (cf_aidelements cf) i = Some s;
  ci_laidel : zlen (cf_aidelements cf) = zlen els;
  ci_len : zlen coords <= zlen els }.
Lemma ofold_aidel (els : list (list string)) idx : forall ae ae', ofold (fun ae i => e <- zget els i ;; s <- zget e 0 ;; zset ae i s) idx ae = Some ae' -> NoDup idx ->
  zlen ae' = zlen ae /\ (forall i, In i idx -> exists e s, zget els i = Some e /\ zget e 0 = Some s /\ zget ae' i = Some s) /\ (forall i, ~ In i idx -> zget ae' i = zget ae i).
Proof.
  induction idx as [|j idx IH]; intros ae ae' H ND; cbn [ofold] in H.
  - inversion H; subst. split; [reflexivity|]. split; [intros ? []|auto].
  - ob H as a1 E. ob E as e Ee. ob E as s Es. inversion ND as [|? ? Hn ND']; subst. destruct (IH _ _ H ND') as (A & B & C).
    split; [rewrite A; eapply zset_len; eauto|]. split.
    + intros i [<-|Hin]; [|auto]. exists e, s. split; [exact Ee|]. split; [exact Es|]. rewrite C by exact Hn. rewrite (zset_get _ _ _ _ _ E), Z.eqb_refl. reflexivity.
    + intros i Hi. rewrite C by (intros Hc; apply Hi; right; exact Hc). rewrite (zset_get _ _ _ _ i E).
      destruct (Z.eqb_spec i j) as [->|]; [exfalso; apply Hi; left; reflexivity|reflexivity].
Qed.
Lemma mkConfiguration_info coords els pt cf : mkConfiguration coords els pt = Some cf -> cfgInfo coords els pt cf.
Proof.
  unfold mkConfiguration. intros H. ob H as ae E1. ob H as names E2. ob H as types E3. inversion H; subst; clear H.
  destruct (ofold_aidel _ _ _ _ E1 (NoDup_zrange _ _)) as (A & B & C).
  constructor; cbn [cf_coords cf_elements cf_aidcoords cf_aid cf_update cf_ptypes cf_names cf_types cf_aidelements]; auto.
  - intros i Hi. apply B. apply In_zrange. lia.
  - rewrite A. unfold zlen. rewrite repeat_length. reflexivity.
  - destruct (Z_le_gt_dec (zlen coords) (zlen els)) as [|Hgt]; [assumption|]. pose proof (zlen_nonneg els).
    destruct (B (zlen els)) as (e & s & X & _); [apply In_zrange; lia|]. apply zget_range in X. lia.
Qed.

(** ** the list of entries *)
Lemma mlFold_spec S origin coords types upd idx : forall acc acc', ofold (mlStep S origin coords types upd) idx acc = Some acc' ->
  exists es, ml_list acc' = ml_list acc ++ es /\ zlen es = zlen idx /\
    (forall i, zget es i = (k <- zget idx i ;; c <- zget coords k ;; t <- zget types k ;; u <- zget upd k ;; Some (mkPE false (cnorm2 (csub c origin)) c czero t u))) /\
    ml_aff acc' = ml_aff acc ++ map (fun _ => 0) (filter (fun e => existsb (fun v => negb (v =? 0)) (pe_upd e)) es) /\
    ml_range acc <= ml_range acc' /\ (forall e, In e es -> cmpRange S (cx (pe_c e)) <= ml_range acc' /\ cmpRange S (cy (pe_c e)) <= ml_range acc' /\ cmpRange S (cz (pe_c e)) <= ml_range acc') /\
    ml_cut2 acc <= ml_cut2 acc' /\ (forall e, In e es -> pe_d2 e <= ml_cut2 acc').
Proof.
  induction idx as [|k idx IH]; intros acc acc' H; cbn [ofold] in H.
  - inversion H; subst. exists []. rewrite !app_nil_r. split; [reflexivity|]. split; [reflexivity|]. split; [intros i; rewrite !zget_nil; reflexivity|].
    split; [reflexivity|]. split; [lia|]. split; [intros ? []|]. split; [lia|intros ? []].
  - ob H as a1 E. unfold mlStep in E. ob E as c Ec. ob E as t Et. ob E as u Eu. inversion E; subst a1; clear E.
    destruct (IH _ _ H) as (es & A & B & C & D & F & G & I & J). cbn [ml_list ml_aff ml_range ml_cut2] in *.
    exists (mkPE false (cnorm2 (csub c origin)) c czero t u :: es). split; [rewrite A, <- app_assoc; reflexivity|].
    split; [rewrite !zlen_cons; lia|]. split.
    + intros i. rewrite !zget_cons. destruct (i =? 0); [cbn [obind]; rewrite Ec, Et, Eu; reflexivity|apply C].
    + split; [rewrite D; cbn [filter pe_upd]; destruct (existsb _ u); [rewrite <- app_assoc; reflexivity|reflexivity]|].
      split; [lia|]. split; [|split; [lia|]].
      * intros e [<-|He]; [cbn [pe_c]; lia|apply G; exact He].
      * intros e [<-|He]; [cbn [pe_d2]; lia|apply J; exact He].
Qed.

(** ** placing the move vectors *)
Lemma placeMoves_spec origins vectors idx : forall l l', ofold (fun l i => o <- zget origins i ;; v <- zget vectors i ;; e <- zget l o ;; zset l o (set_move e v)) idx l = Some l' ->
  (forall i j o, In i idx -> In j idx -> zget origins i = Some o -> zget origins j = Some o -> i = j) -> NoDup idx ->
  zlen l' = zlen l /\
  (forall o, (forall i, In i idx -> zget origins i <> Some o) -> zget l' o = zget l o) /\
  (forall i o, In i idx -> zget origins i = Some o -> exists v e, zget vectors i = Some v /\ zget l o = Some e /\ zget l' o = Some (set_move e v)).
Proof.
  induction idx as [|k idx IH]; intros l l' H HI ND; cbn [ofold] in H.
  - inversion H; subst. split; [reflexivity|]. split; [auto|intros ? ? []].
  - ob H as l1 E. ob E as o Eo. ob E as v Ev. ob E as e Ee. inversion ND as [|? ? Hn ND']; subst.
    destruct (IH _ _ H) as (A & B & C); [intros; apply HI with (o := o0); auto; right; auto|exact ND'|].
    split; [rewrite A; eapply zset_len; eauto|]. split.
    + intros o' Ho'. rewrite B by (intros i Hi; apply Ho'; right; exact Hi). rewrite (zset_get _ _ _ _ o' E).
      destruct (Z.eqb_spec o' o) as [->|]; [exfalso; apply (Ho' k); [left; reflexivity|exact Eo]|reflexivity].
    + intros i o' Hin Hi. destruct Hin as [<-|Hin].
      * assert (o' = o) by congruence. subst o'. exists v, e. split; [exact Ev|]. split; [exact Ee|].
        rewrite B; [rewrite (zset_get _ _ _ _ o E), Z.eqb_refl; reflexivity|]. intros j Hj Ej. apply Hn.
        rewrite (HI k j o); auto; [left; reflexivity|right; exact Hj].
      * destruct (C i o' Hin Hi) as (v' & e' & X1 & X2 & X3). exists v', e'. split; [exact X1|]. split; [|exact X3].
        rewrite (zset_get _ _ _ _ o' E) in X2. destruct (Z.eqb_spec o' o) as [->|]; [|exact X2]. exfalso. apply Hn.
        rewrite (HI k i o); auto; [left; reflexivity|right; exact Hin].
Qed.

(** ** identity moves *)
Definition goesTo (S : Z) (l : list pentry) (i : Z) (e : pentry) (j : Z) : Prop :=
  exists f, zget l j = Some f /\ pe_hasmove f = true /\ j <> i /\ 1000000000000 * cnorm2 (csub (pe_c f) (cadd (pe_c e) (pe_move e))) < S * S.
Lemma moveTarget_spec S l i e : 
  match moveTarget S l i e with
  | Some j => goesTo S l i e j
  | None => forall j, ~ goesTo S l i e j
  end.
Proof.
  unfold moveTarget, goesTo. set (dest := cadd (pe_c e) (pe_move e)). clearbody dest.
  set (go := fix go (l : list pentry) (j : Z) : option Z := match l with [] => None | f :: l' => if pe_hasmove f && negb (j =? i) && (1000000000000 * cnorm2 (csub (pe_c f) dest) <? S * S) then Some j else go l' (j + 1) end).
  assert (H : forall l n, match go l n with
     | Some j => exists f, zget l (j - n) = Some f /\ pe_hasmove f = true /\ j <> i /\ 1000000000000 * cnorm2 (csub (pe_c f) dest) < S * S
     | None => forall j f, zget l (j - n) = Some f -> pe_hasmove f = true -> j <> i -> ~ 1000000000000 * cnorm2 (csub (pe_c f) dest) < S * S end).
  { clear l. induction l as [|f l IH]; intros n; cbn [go].
    - intros j f H. rewrite zget_nil in H. discriminate.
    - destruct (pe_hasmove f && negb (n =? i) && (1000000000000 * cnorm2 (csub (pe_c f) dest) <? S * S)) eqn:E.
      + rewrite !andb_true_iff in E. destruct E as ((E1 & E2) & E3). exists f. rewrite Z.sub_diag. split; [apply zget_0|]. split; [exact E1|].
        split; [destruct (Z.eqb_spec n i); [discriminate|assumption]|apply Z.ltb_lt; exact E3].
      + specialize (IH (n + 1)). destruct (go l (n + 1)) as [j|].
        * destruct IH as (f' & A & B & C & D). exists f'. split; [|auto]. rewrite zget_cons. apply zget_range in A as Hr.
          destruct (Z.eqb_spec (j - n) 0); [lia|]. replace (j - n - 1) with (j - (n + 1)) by lia. exact A.
        * intros j f' A B C D. rewrite zget_cons in A. destruct (Z.eqb_spec (j - n) 0) as [E0|E0].
          -- inversion A; subst f'. assert (j = n) by lia. subst j. rewrite B in E. destruct (Z.eqb_spec n i); [contradiction|]. cbn [andb negb] in E.
             apply Z.ltb_ge in E. lia.
          -- apply (IH j f'); auto. replace (j - (n + 1)) with (j - n - 1) by lia. exact A. }
  specialize (H l 0). destruct (go l 0) as [j|].
  - destruct H as (f & A & B). rewrite Z.sub_0_r in A. eauto.
  - intros j (f & A & B & C & D). apply (H j f); auto. rewrite Z.sub_0_r. exact A.
Qed.
Lemma fst_combine {A B} (l : list A) : forall (m : list B), length l = length m -> map fst (combine l m) = l.
Proof. induction l as [|a l IH]; intros [|b m] H; try discriminate; [reflexivity|]. cbn. f_equal. apply IH. cbn in H. congruence. Qed.
Lemma In_enum {A} (l : list A) i a : In (i, a) (combine (zrange 0 (zlen l - 1)) l) <-> zget l i = Some a.
Proof.
  assert (H : forall l n, In (i, a) (combine (zrange n (n + zlen l - 1)) l) <-> zget l (i - n) = Some a).
  { clear l. induction l as [|b l IH]; intros n.
    - cbn [combine]. destruct (zrange n (n + zlen (@nil A) - 1)); cbn [combine]; rewrite zget_nil; split; [intros []|discriminate|intros []|discriminate].
    - assert (E : zrange n (n + zlen (b :: l) - 1) = n :: zrange (n + 1) (n + 1 + zlen l - 1)).
      { apply zget_ext. intros k. rewrite zlen_cons. pose proof (zlen_nonneg l). rewrite zget_cons. destruct (Z.eqb_spec k 0) as [->|Hk].
        - rewrite zget_zrange by lia. f_equal. lia.
        - destruct (Z_lt_le_dec k 0); [rewrite !zget_neg by lia; reflexivity|]. destruct (Z_le_gt_dec k (zlen l)) as [Hle|Hgt].
          + rewrite !zget_zrange by lia. f_equal. lia.
          + rewrite (proj2 (zget_None (zrange n _) k)), (proj2 (zget_None (zrange (n + 1) _) (k - 1))); [reflexivity| |]; right; rewrite zlen_zrange; lia. }
      rewrite E. cbn [combine In]. rewrite IH. rewrite zget_cons. destruct (Z.eqb_spec (i - n) 0) as [H0|H0].
      + split.
        * intros [Heq|Hin]; [inversion Heq; reflexivity|]. rewrite zget_neg in Hin by lia. discriminate.
        * intros Heq. left. inversion Heq. f_equal; lia.
      + replace (i - (n + 1)) with (i - n - 1) by lia. split; [intros [Heq|Hin]; [inversion Heq; lia|exact Hin]|auto]. }
  specialize (H l 0). rewrite Z.sub_0_r in H. exact H.
Qed.
Lemma idMovesOf_In S l i j : In (i, j) (idMovesOf S l) <-> exists e, zget l i = Some e /\ pe_hasmove e = true /\ moveTarget S l i e = Some j.
Proof.
  unfold idMovesOf. rewrite in_flat_map. split.
  - intros ([i' e] & H1 & H2). apply In_enum in H1. destruct (pe_hasmove e) eqn:Em; [|destruct H2]. destruct (moveTarget S l i' e) as [j'|] eqn:Ej; [|destruct H2].
    destruct H2 as [H2|[]]. inversion H2; subst. eauto.
  - intros (e & H1 & H2 & H3). exists (i, e). split; [apply In_enum; exact H1|]. rewrite H2, H3. left; reflexivity.
Qed.
Lemma idMovesOf_fst S l : NoDup (map fst (idMovesOf S l)).
Proof.
  unfold idMovesOf. assert (H : forall m, NoDup (map fst m) -> NoDup (map fst (flat_map (fun ie : Z * pentry => let (i, e) := ie in
              if pe_hasmove e then match moveTarget S l i e with Some j => [(i, j)] | None => [] end else []) m)) /\
     forall i, In i (map fst (flat_map (fun ie : Z * pentry => let (i, e) := ie in
              if pe_hasmove e then match moveTarget S l i e with Some j => [(i, j)] | None => [] end else []) m)) -> In i (map fst m)).
  { induction m as [|[i e] m IH]; intros ND; cbn [flat_map map]; [split; [constructor|auto]|]. cbn [map fst] in ND. inversion ND as [|? ? Hn ND']; subst. destruct (IH ND') as [A B].
    destruct (pe_hasmove e); [destruct (moveTarget S l i e)|]; cbn [app map fst]; split; auto.
    - constructor; auto.
    - intros k [<-|Hk]; [left; reflexivity|right; auto].
    - intros k Hk. right; auto.
    - intros k Hk. right; auto. }
  apply H. assert (E : map fst (combine (zrange 0 (zlen l - 1)) l) = zrange 0 (zlen l - 1)).
  { apply fst_combine. unfold zrange. rewrite zseq_length. unfold zlen. lia. }
  rewrite E. apply NoDup_zrange.
Qed.

(** ** plain processes *)
Record plainOf (S : Z) (pt : tmap) (rows : list row) (basis : list Z) (p : process) (es : list pentry) : Prop := {
  po_len : zlen es = zlen rows;
  po_rows : forall i r, zget rows i = Some r -> exists e, zget es i = Some e /\ entryFor pt r e;
  po_ml : pr_ml p = isort (peLt S) es;
  po_idm : pr_idmoves p = idMovesOf S (pr_ml p);
  po_slots : slots p;
  po_aff : forall a, In a (pr_aff p) -> a = 0;
  po_d2 : exists r0, zget rows 0 = Some r0 /\ forall e, In e es -> pe_d2 e = cnorm2 (csub (pe_c e) (rw_c r0));
  po_basis : pr_basis p = basis;
  po_bucket : pr_bucket p = false }.

Lemma filter_perm {A} (f : A -> bool) l m : Permutation l m -> Permutation (filter f l) (filter f m).
Proof.
  induction 1; cbn; try reflexivity.
  - destruct (f x); [constructor|]; assumption.
  - destruct (f x), (f y); try reflexivity. apply perm_swap.
  - etransitivity; eauto.
Qed.
Lemma updateFromTypes_unit W kb ka t1 t2 u : unitAt W kb t1 -> unitAt W ka t2 -> updateFromTypes t1 t2 = Some u ->
  zlen u = W /\ forall j a, zget u j = Some a -> a = (if j =? ka then 1 else 0) - (if j =? kb then 1 else 0).
Proof.
  intros [L1 U1] [L2 U2] H. unfold updateFromTypes in H. split.
  - rewrite (omap_zlen _ _ _ H), zlen_zrange. pose proof (zlen_nonneg t2). lia.
  - intros j a Ej. rewrite (omap_zget _ _ _ j H) in Ej. ob Ej as k Ek. apply zget_range in Ek as Hr. rewrite zlen_zrange in Hr.
    rewrite zget_zrange in Ek by lia. inversion Ek; subst k. unfold bget in Ej. rewrite Z.add_0_l in *. ob Ej as x Ex. ob Ej as y Ey. inversion Ej.
    apply U2 in Ex. apply U1 in Ey. congruence.
Qed.

Lemma mkProcess_plain S pt rows basis rate number origins vectors first second p : wfPT pt ->
  mkConfiguration (map rw_c rows) (map (fun r => [rw_before r]) rows) pt = Some first ->
  mkConfiguration (map rw_c rows) (map (fun r => [rw_after r]) rows) pt = Some second ->
  movesGiven rows origins vectors ->
  mkProcess S first second rate basis origins vectors number = Some p -> exists es, plainOf S pt rows basis p es.
Proof.
  intros WP E1 E2 MG H. apply mkConfiguration_info in E1, E2. destruct E1 as [A1 A2 _ _ A5 A6 A7 A8 _ _ _], E2 as [B1 B2 _ _ B5 B6 B7 B8 _ _ _].
  destruct (names_wf _ _ WP A7) as [NL1 _]. destruct (names_wf _ _ WP B7) as [NL2 _].
  assert (T1 : forall i r, zget rows i = Some r -> exists k t, tfind pt (rw_before r) = Some k /\ zget (cf_types first) i = Some t /\ unitAt (zlen pt) k t).
  { intros i r Er. pose proof (omap_zget _ _ _ i A8) as Z1. rewrite zget_map, Er in Z1. cbn [option_map obind] in Z1.
    assert (Hl : exists t, zget (cf_types first) i = Some t) by (apply zget_lt; rewrite (omap_zlen _ _ _ A8), zlen_map; eapply zget_range; eauto).
    destruct Hl as [t Et]. rewrite Et in Z1. symmetry in Z1.
    destruct (tfind pt (rw_before r)) as [k|] eqn:Ek; [|unfold bucketOf in Z1; cbn [ofold] in Z1; rewrite Ek in Z1; discriminate].
    destruct (bucketOf_one _ _ _ _ _ Ek Z1) as [U R]. rewrite NL1, Z.max_r in U by (pose proof (zlen_nonneg pt); lia). exists k, t. auto. }
  assert (T2 : forall i r, zget rows i = Some r -> exists k t, tfind pt (rw_after r) = Some k /\ zget (cf_types second) i = Some t /\ unitAt (zlen pt) k t).
  { intros i r Er. pose proof (omap_zget _ _ _ i B8) as Z1. rewrite zget_map, Er in Z1. cbn [option_map obind] in Z1.
    assert (Hl : exists t, zget (cf_types second) i = Some t) by (apply zget_lt; rewrite (omap_zlen _ _ _ B8), zlen_map; eapply zget_range; eauto).
    destruct Hl as [t Et]. rewrite Et in Z1. symmetry in Z1.
    destruct (tfind pt (rw_after r)) as [k|] eqn:Ek; [|unfold bucketOf in Z1; cbn [ofold] in Z1; rewrite Ek in Z1; discriminate].
    destruct (bucketOf_one _ _ _ _ _ Ek Z1) as [U R]. rewrite NL2, Z.max_r in U by (pose proof (zlen_nonneg pt); lia). exists k, t. auto. }
  unfold mkProcess in H. ob H as acc Eacc. ob H as l El. inversion H; subst p; clear H.
  unfold configurationsToMatchList in Eacc. ob Eacc as upd Eupd. ob Eacc as origin Eor.
  destruct (mlFold_spec _ _ _ _ _ _ _ _ Eacc) as (es0 & M1 & M2 & M3 & M4 & M5 & M6 & M7 & M8). cbn [ml_list ml_aff app] in M1, M4. clear Eacc.
  rewrite A2, zlen_map in M2, M3. rewrite zlen_zrange in M2. pose proof (zlen_nonneg rows) as Hn.
  assert (HL0 : zlen es0 = zlen rows) by lia. clear M2.
  unfold updateTypes in Eupd. rewrite B5, A2, zlen_map in Eupd.
  destruct MG as (G1 & G2 & G3 & G4).
  unfold placeMoves in El. rewrite M1 in El.
  destruct (placeMoves_spec _ _ _ _ _ El) as (P1 & P2 & P3).
  { intros i j o _ _ Ei Ej. eapply NoDup_zget_inj; eauto. }
  { apply NoDup_zrange. }
  assert (HE0 : forall i r, zget rows i = Some r -> exists kb ka e, tfind pt (rw_before r) = Some kb /\ tfind pt (rw_after r) = Some ka /\ zget es0 i = Some e /\
     pe_c e = rw_c r /\ unitAt (zlen pt) kb (pe_match e) /\ pe_hasmove e = false /\ pe_move e = czero /\ pe_d2 e = cnorm2 (csub (pe_c e) origin) /\
     zlen (pe_upd e) = zlen pt /\ forall j a, zget (pe_upd e) j = Some a -> a = (if j =? ka then 1 else 0) - (if j =? kb then 1 else 0)).
  { intros i r Er. destruct (T1 i r Er) as (kb & t1 & K1 & K2 & K3). destruct (T2 i r Er) as (ka & t2 & J1 & J2 & J3).
    apply zget_range in Er as Hr. pose proof (M3 i) as Z1. rewrite zget_zrange in Z1 by lia. rewrite Z.add_0_l in Z1. cbn [obind] in Z1.
    rewrite A1, zget_map, Er, K2 in Z1. cbn [option_map obind] in Z1.
    pose proof (omap_zget _ _ _ i Eupd) as Z2. rewrite zget_zrange in Z2 by lia. rewrite Z.add_0_l in Z2. cbn [obind] in Z2. rewrite K2, J2 in Z2. cbn [obind] in Z2.
    destruct (zget_lt es0 i) as [e Ee]; [lia|]. rewrite Ee in Z1. symmetry in Z1. ob Z1 as u Eu. inversion Z1; subst e. rewrite Eu in Z2. symmetry in Z2.
    destruct (updateFromTypes_unit _ _ _ _ _ _ K3 J3 Z2) as [U1 U2].
    exists kb, ka, (mkPE false (cnorm2 (csub (rw_c r) origin)) (rw_c r) czero t1 u). cbn [pe_c pe_match pe_upd pe_hasmove pe_move pe_d2].
    split; [exact K1|]. split; [exact J1|]. split; [exact Ee|]. split; [reflexivity|]. split; [exact K3|]. split; [reflexivity|]. split; [reflexivity|]. split; [reflexivity|]. split; [exact U1|exact U2]. }
  (* entries after the move vectors *)
  assert (HE1 : forall i r, zget rows i = Some r -> exists e e0, zget l i = Some e /\ zget es0 i = Some e0 /\ entryFor pt r e /\ pe_upd e = pe_upd e0 /\ pe_d2 e = cnorm2 (csub (pe_c e) origin)).
  { intros i r Er. destruct (HE0 i r Er) as (kb & ka & e & K1 & J1 & Ee & C & U & Hm & Hv & Hd & UL & UU).
    destruct (in_dec Z.eq_dec i origins) as [Hin|Hnin].
    - apply In_zget in Hin. destruct Hin as [k Ek]. apply zget_range in Ek as Hk.
      destruct (P3 k i) as (v & e' & V1 & V2 & V3); [apply In_zrange; lia|exact Ek|]. assert (e' = e) by congruence. subst e'.
      exists (set_move e v), e. split; [exact V3|]. split; [exact Ee|]. split; [|split; [reflexivity|exact Hd]].
      assert (HM : rw_move r = Some v) by (apply (G4 i r v Er); eauto).
      constructor; cbn [set_move pe_c pe_match pe_upd pe_hasmove pe_move]; [exact C|exists kb, ka; auto|rewrite HM; auto].
    - exists e, e. split; [rewrite P2; [exact Ee|]|].
      + intros k _ Ek. apply Hnin. eapply zget_In; eauto.
      + split; [exact Ee|]. split; [|split; [reflexivity|exact Hd]]. constructor; [exact C|exists kb, ka; auto|].
        destruct (rw_move r) as [v|] eqn:Em; [|auto]. exfalso. apply (G4 i r v Er) in Em. destruct Em as (k & Ek & _). apply Hnin. eapply zget_In; eauto. }
  exists l. constructor; cbn [pr_ml pr_idmoves pr_aff pr_basis pr_bucket].
  - lia.
  - intros i r Er. destruct (HE1 i r Er) as (e & _ & X1 & _ & X2 & _). eauto.
  - reflexivity.
  - reflexivity.
  - unfold slots. cbn [pr_aff pr_ml]. rewrite M4. rewrite zlen_map. unfold zlen. f_equal.
    rewrite (Permutation_length (filter_perm _ _ _ (isort_perm (peLt S) l))).
    rewrite <- (filter_map_length (fun u => existsb (fun v => negb (v =? 0)) u) pe_upd es0), <- (filter_map_length (fun u => existsb (fun v => negb (v =? 0)) u) pe_upd l).
    f_equal. f_equal. apply zget_ext. intros i. rewrite !zget_map. destruct (zget rows i) as [r|] eqn:Er.
    + destruct (HE1 i r Er) as (e & e0 & X1 & X2 & _ & X3 & _). rewrite X1, X2. cbn. congruence.
    + apply zget_None in Er. rewrite (proj2 (zget_None l i)), (proj2 (zget_None es0 i)); [reflexivity|lia|lia].
  - intros a Ha. rewrite M4 in Ha. apply in_map_iff in Ha. destruct Ha as (e & <- & _). reflexivity.
  - rewrite A1, zget_map in Eor. destruct (zget rows 0) as [r0|] eqn:E0; [|discriminate]. cbn in Eor. inversion Eor. exists r0. split; [reflexivity|].
    intros e He. apply In_zget in He. destruct He as [i Ei]. apply zget_range in Ei as Hr. destruct (zget_lt rows i) as [r Er]; [lia|].
    destruct (HE1 i r Er) as (e' & _ & X1 & _ & _ & _ & X2). assert (e' = e) by congruence. subst e'. rewrite <- H0 in X2. congruence.
  - reflexivity.
  - rewrite B5. reflexivity.
Qed.
Lemma builtPlain_spec S pt rows basis p : wfPT pt -> builtPlain S pt rows basis p -> exists es, plainOf S pt rows basis p es.
Proof.
  intros WP (first & second & origins & vectors & rate & number & E1 & E2 & MG & [H|(cutoff & cache & H)]).
  - eapply mkProcess_plain; eauto.
  - unfold mkCustomProcess in H. ob H as p0 E0. destruct (mkProcess_plain _ _ _ _ _ _ _ _ _ _ _ WP E1 E2 MG E0) as [es []]. inversion H; subst p; clear H.
    exists es. constructor; cbn [pr_ml pr_idmoves pr_aff pr_basis pr_bucket slots]; auto.
Qed.
