(** A process that is made of the data of a process is the same process. *)
From Verif Require Export TPyProcess.
From Verif Require Import PTypes PTotal PPyProcess SPyProcess.
Open Scope string_scope.
Open Scope list_scope.
Open Scope Z_scope.

(** ** Sorting what is sorted *)
Section Sorted.
Context {A : Type} (lt : A -> A -> bool).
Fixpoint ordered (l : list A) : Prop := match l with a :: l' => (match l' with b :: _ => lt b a = false | [] => True end) /\ ordered l' | [] => True end.
Lemma isort_id l : ordered l -> isort lt l = l.
Proof. induction l as [|a l IH]; intros H; [reflexivity|]. destruct H as [H1 H2]. change (isort lt (a :: l)) with (sinsert lt a (isort lt l)). rewrite IH by exact H2. destruct l as [|b l]; [reflexivity|]. cbn [sinsert]. rewrite H1. reflexivity. Qed.
Context (asym : forall a b, lt a b = true -> lt b a = false).
Lemma sinsert_ordered a l : ordered l -> ordered (sinsert lt a l).
Proof.
  induction l as [|b l IH]; intros H; [cbn; auto|]. cbn [sinsert]. destruct (lt b a) eqn:E; [|split; [exact E|exact H]]. destruct H as [H1 H2]. specialize (IH H2). split; [|exact IH].
  destruct l as [|c l]; [cbn; apply asym; exact E|]. cbn [sinsert]. destruct (lt c a); [exact H1|apply asym; exact E].
Qed.
Lemma isort_ordered l : ordered (isort lt l). Proof. induction l as [|a l IH]; [exact I|]. apply sinsert_ordered, IH. Qed.
End Sorted.
Lemma ordered_map {A B} (lt : A -> A -> bool) (lt' : B -> B -> bool) (f : A -> B) l : (forall x y, lt' (f x) (f y) = lt x y) -> ordered lt' (map f l) <-> ordered lt l.
Proof. intros H. induction l as [|a l IH]; [reflexivity|]. cbn [map ordered]. rewrite IH. destruct l as [|b l]; [reflexivity|]. cbn [map]. rewrite H. reflexivity. Qed.
Lemma compare_lt_asym x : forall y, String.compare x y = Lt -> String.compare y x <> Lt.
Proof. intros y H. rewrite String.compare_antisym, H. discriminate. Qed.
Lemma sltb_asym a b : String.ltb a b = true -> String.ltb b a = false.
Proof. unfold String.ltb. intros H. rewrite String.compare_antisym. destruct (String.compare a b); [discriminate|reflexivity|discriminate]. Qed.
Lemma srLt_asym a b : srLt a b = true -> srLt b a = false.
Proof.
  unfold srLt. destruct (Z.ltb_spec (sr_d2 a) (sr_d2 b)), (Z.ltb_spec (sr_d2 b) (sr_d2 a)); try lia; try reflexivity; try discriminate.
  destruct (String.ltb (sr_before a) (sr_before b)) eqn:E1. { rewrite (sltb_asym _ _ E1). reflexivity. } destruct (String.ltb (sr_before b) (sr_before a)) eqn:E2; [discriminate|].
  destruct (Z.ltb_spec (cx (sr_c a)) (cx (sr_c b))), (Z.ltb_spec (cx (sr_c b)) (cx (sr_c a))); try lia; try reflexivity; try discriminate.
  destruct (Z.ltb_spec (cy (sr_c a)) (cy (sr_c b))), (Z.ltb_spec (cy (sr_c b)) (cy (sr_c a))); try lia; try reflexivity; try discriminate.
Qed.

Lemma NoDup_zget {A} (l : list A) : (forall i j a, zget l i = Some a -> zget l j = Some a -> i = j) -> NoDup l.
Proof.
  induction l as [|x l IH]; intros H; constructor.
  - intros Hin. apply In_zget in Hin. destruct Hin as [i Hi]. pose proof (zget_range _ _ _ Hi). assert (0 = i + 1); [|lia]. apply (H 0 (i + 1) x); [reflexivity|]. rewrite zget_S by lia. exact Hi.
  - apply IH. intros i j a Hi Hj. pose proof (zget_range _ _ _ Hi). pose proof (zget_range _ _ _ Hj). assert (i + 1 = j + 1); [|lia]. apply (H (i + 1) (j + 1) a); rewrite zget_S by lia; assumption.
Qed.

(** ** Vectors that were accepted explain the change *)
Lemma checkMoveVectors_explain S cs b a v mvs : 0 < S <= 100000000 -> zlen b = zlen cs -> zlen a = zlen cs -> mvs <> [] -> checkMoveVectors S (centred cs) b a v = Ok mvs -> explain cs b a mvs.
Proof.
  intros HS Lb La N H. unfold checkMoveVectors in H. destruct (match v with VNone => _ | _ => _ end) as [[g|]|]; cbn [MPy.obind] in H; [|injection H as <-; contradiction|discriminate].
  destruct (applyMoves S (centred cs) b a b g) as [moved|] eqn:EA; cbn [MPy.obind] in H; [|discriminate]. destruct (listEq String.eqb a moved) eqn:EL; [|discriminate]. apply listEq_str in EL. subst moved. injection H as ->.
  apply applyMoves_inv in EA; rewrite ?centred_zlen; auto. destruct EA as (A1 & A2 & _). split.
  - intros iv Hin. destruct (A1 iv Hin) as (k & j & s & L & X). exists k, j, s. split; [apply leads_centred; exact L|exact X].
  - intros j. destruct (A2 j) as [(iv & k & I & L & X)|[X1 X2]]; [left; exists iv, k; split; [exact I|]; split; [apply leads_centred; exact L|exact X]|]. right. split; [|exact X2]. intros iv k I L. apply (X1 iv k I). apply leads_centred. exact L.
Qed.
Lemma checkMoveVectors_nil S cs b a v : 0 < S <= 100000000 -> zlen b = zlen cs -> zlen a = zlen cs -> b <> a -> checkMoveVectors S (centred cs) b a v = Ok [] -> forall i j, ~ swaps b a i j.
Proof.
  intros HS Lb La N H i j SW. unfold checkMoveVectors in H. destruct (match v with VNone => _ | _ => _ end) as [[g|]|] eqn:G; cbn [MPy.obind] in H; [| |discriminate].
  - destruct (applyMoves S (centred cs) b a b g) as [moved|] eqn:EA; cbn [MPy.obind] in H; [|discriminate]. destruct (listEq String.eqb a moved) eqn:EL; [|discriminate]. apply listEq_str in EL. subst moved. injection H as ->. cbn in EA. injection EA as EA. contradiction.
  - destruct v; try discriminate; try (unfold seqOf in G; cbn [asSeq MPy.obind] in G; destruct (oall moveOf _); discriminate). destruct (reconstruct_cases (centred cs) b a) as [(i' & j' & ci & cj & _ & _ & _ & E)|[X _]]; rewrite ?centred_zlen; auto; [congruence|exact (X i j SW)].
Qed.

Section Again.
Context (S : Z) (HS : 0 < S <= 100000000) (coordinates before after moves : pyval) (cs : list coord) (b a : list string) (mvs : list (Z * coord)) (p : kproc) (B : builtBy S coordinates before after moves cs b a mvs p) (ND : NoDup (kp_coords p)).
Let rows := sortRows (centred cs) b a.
(** the place that row number k had *)
Definition oldOf (k : Z) : option Z := zget (map sr_old rows) k.
Lemma csub_czero c : csub c czero = c. Proof. destruct c. unfold csub, czero. cbn. f_equal; lia. Qed.
Lemma row_at k : match oldOf k with
  | Some o => exists c s t, zget cs o = Some c /\ zget (kp_coords p) k = Some (csub c (hd czero cs)) /\ zget b o = Some s /\ zget (kp_before p) k = Some s /\ zget a o = Some t /\ zget (kp_after p) k = Some t /\
      zget rows k = Some (mkSR (csub c (hd czero cs)) (cnorm2 (csub c (hd czero cs))) s t o)
  | None => zget (kp_coords p) k = None /\ zget (kp_before p) k = None /\ zget (kp_after p) k = None /\ zget rows k = None
  end.
Proof using B.
  unfold oldOf. rewrite (kp_coords_rows _ _ _ _ _ _ _ _ _ _ B), (bb_before _ _ _ _ _ _ _ _ _ _ B), (bb_after _ _ _ _ _ _ _ _ _ _ B). fold rows. rewrite !zget_map. destruct (zget rows k) as [r|] eqn:E; cbn [option_map]; [|auto].
  pose proof (zget_In _ _ _ E) as Hin. apply (rows_In _ _ _ _ _ _ _ _ _ _ B) in Hin. destruct Hin as (o & c & s & t & E1 & E2 & E3 & ->). exists c, s, t. cbn [sr_c sr_before sr_after sr_old]. auto 10.
Qed.
Lemma oldOf_inj k k' o : oldOf k = Some o -> oldOf k' = Some o -> k = k'.
Proof using B. unfold oldOf. apply zget_NoDup_inj. apply (Permutation_NoDup (Permutation_sym (rows_old _ _ _ _ _ _ _ _ _ _ B))). apply NoDup_zrange. Qed.
Lemma oldOf_onto o : 0 <= o < zlen cs -> exists k, oldOf k = Some o.
Proof using B. intros H. unfold oldOf. apply In_zget. apply (Permutation_in _ (Permutation_sym (rows_old _ _ _ _ _ _ _ _ _ _ B))). apply In_zrange. lia. Qed.
Lemma oldOf_range k o : oldOf k = Some o -> 0 <= o < zlen cs /\ 0 <= k < zlen cs.
Proof using B.
  unfold oldOf. intros H. split.
  - pose proof (Permutation_in _ (rows_old _ _ _ _ _ _ _ _ _ _ B) (zget_In _ _ _ H)) as X. apply In_zrange in X. lia.
  - apply zget_range in H. rewrite zlen_map in H. unfold rows in H. rewrite (rows_zlen _ _ _ _ _ _ _ _ _ _ B) in H. exact H.
Qed.
Lemma zlen_coords : zlen (kp_coords p) = zlen cs. Proof using B. rewrite (kp_coords_rows _ _ _ _ _ _ _ _ _ _ B), zlen_map. apply (rows_zlen _ _ _ _ _ _ _ _ _ _ B). Qed.
Lemma zlen_before : zlen (kp_before p) = zlen cs. Proof using B. rewrite (bb_before _ _ _ _ _ _ _ _ _ _ B), zlen_map. apply (rows_zlen _ _ _ _ _ _ _ _ _ _ B). Qed.
Lemma zlen_after : zlen (kp_after p) = zlen cs. Proof using B. rewrite (bb_after _ _ _ _ _ _ _ _ _ _ B), zlen_map. apply (rows_zlen _ _ _ _ _ _ _ _ _ _ B). Qed.
Lemma coords_ne : kp_coords p <> []. Proof using B. intros E. pose proof zlen_coords as L. rewrite E in L. apply (bb_ne _ _ _ _ _ _ _ _ _ _ B). revert L. generalize cs. clear. intros [|c l] L; [reflexivity|]. rewrite zlen_cons in L. pose proof (zlen_nonneg l). change (zlen (@nil coord)) with 0 in L. lia. Qed.
Lemma coords_head : hd czero (kp_coords p) = czero. Proof using B. rewrite (kp_coords_rows _ _ _ _ _ _ _ _ _ _ B). apply (rows_head _ _ _ _ _ _ _ _ _ _ B). Qed.
Lemma coords_centred : centred (kp_coords p) = kp_coords p.
Proof using B. clear ND. pose proof coords_head as H. destruct (kp_coords p) as [|c l]; [reflexivity|]. cbn [hd] in H. subst c. cbn [centred]. rewrite (map_ext _ (fun c => c)) by apply csub_czero. apply map_id. Qed.
Lemma NoDup_cs : NoDup cs.
Proof using B ND.
  apply NoDup_zget. intros i j c Hi Hj. pose proof (zget_range _ _ _ Hi) as Ri. pose proof (zget_range _ _ _ Hj) as Rj. destruct (oldOf_onto i Ri) as [k K]. destruct (oldOf_onto j Rj) as [l L].
  pose proof (row_at k) as RK. rewrite K in RK. destruct RK as (c1 & s1 & t1 & C1 & D1 & _). pose proof (row_at l) as RL. rewrite L in RL. destruct RL as (c2 & s2 & t2 & C2 & D2 & _). assert (E : k = l) by (apply (zget_NoDup_inj _ _ _ _ ND D1); congruence). congruence.
Qed.
(** ** the elements *)
Lemma wild_again : map (String.eqb "*") (kp_before p) = map (String.eqb "*") (kp_after p).
Proof using B.
  apply PBase.zget_ext. intros k. rewrite !zget_map. pose proof (row_at k) as R. destruct (oldOf k) as [o|]; [|destruct R as (_ & -> & -> & _); reflexivity]. destruct R as (c & s & t & _ & _ & E1 & -> & E2 & -> & _).
  pose proof (bb_wild _ _ _ _ _ _ _ _ _ _ B) as W. assert (X : zget (map (String.eqb "*") b) o = zget (map (String.eqb "*") a) o) by (rewrite W; reflexivity). rewrite !zget_map, E1, E2 in X. exact X.
Qed.
Lemma change_again : kp_before p <> kp_after p.
Proof using B.
  intros E. apply (bb_change _ _ _ _ _ _ _ _ _ _ B). apply PBase.zget_ext. intros o. destruct (Z_lt_ge_dec o 0) as [|]; [rewrite !(proj2 (zget_None _ _)) by lia; reflexivity|]. destruct (Z_lt_ge_dec o (zlen cs)).
  - destruct (oldOf_onto o ltac:(lia)) as [k K]. pose proof (row_at k) as R. rewrite K in R. destruct R as (c & s & t & _ & _ & E1 & F1 & E2 & F2 & _). rewrite E in F1. congruence.
  - rewrite !(proj2 (zget_None _ _)); [reflexivity| |]; rewrite ?(bb_la _ _ _ _ _ _ _ _ _ _ B), ?(bb_lb _ _ _ _ _ _ _ _ _ _ B); lia.
Qed.
(** ** the rows *)
Lemma rows_again : sortRows (kp_coords p) (kp_before p) (kp_after p) = sbase (kp_coords p) (kp_before p) (kp_after p).
Proof using B.
  unfold sortRows. fold (sbase (kp_coords p) (kp_before p) (kp_after p)). apply isort_id. set (g := fun r => mkSR (sr_c r) (sr_d2 r) (sr_before r) (sr_after r) 0).
  apply (ordered_map srLt srLt g); [reflexivity|]. replace (map g (sbase (kp_coords p) (kp_before p) (kp_after p))) with (map g rows).
  - apply (ordered_map srLt srLt g); [reflexivity|]. apply isort_ordered. exact srLt_asym.
  - apply PBase.zget_ext. intros k. rewrite !zget_map, sbase_zget, coords_head by (rewrite ?zlen_before, ?zlen_after, zlen_coords; reflexivity). pose proof (row_at k) as R. destruct (oldOf k) as [o|]; [|destruct R as (-> & _ & _ & ->); reflexivity].
    destruct R as (c & s & t & _ & -> & _ & -> & _ & -> & ->). cbn [option_map]. rewrite csub_czero. reflexivity.
Qed.
(** ** the vectors *)
Lemma moves_again : resortMoves (sbase (kp_coords p) (kp_before p) (kp_after p)) (kp_moves p) = Ok (kp_moves p).
Proof using B HS.
  assert (LZ : zlen (sbase (kp_coords p) (kp_before p) (kp_after p)) = zlen cs) by (rewrite sbase_zlen by (rewrite ?zlen_before, ?zlen_after, zlen_coords; reflexivity); apply zlen_coords).
  rewrite resortMoves_ok.
  - f_equal. rewrite LZ, sbase_old, zlen_coords by (rewrite ?zlen_before, ?zlen_after, zlen_coords; reflexivity).
    rewrite (map_ext_in _ (fun iv => iv)).
    + rewrite map_id. apply isort_id. pose proof (bb_kmoves _ _ _ _ _ _ _ _ _ _ B) as M. unfold resortMoves in M. destruct (oall _ mvs) as [l|]; cbn [MPy.obind] in M; [|discriminate]. injection M as <-. apply isort_ordered. intros x y H. apply Z.ltb_lt in H. apply Z.ltb_ge. lia.
    + intros [k v] Hin. pose proof (kp_moves_range _ _ _ _ _ _ _ _ _ _ B HS _ Hin) as R. cbn [fst snd] in *. rewrite startOf_nonneg by lia. f_equal. apply resort_zfind; [apply NoDup_zrange|]. rewrite zget_zrange0. destruct (Z.leb_spec 0 k), (Z.ltb_spec k (zlen cs)); try lia. reflexivity.
  - intros [k v] Hin. pose proof (kp_moves_range _ _ _ _ _ _ _ _ _ _ B HS _ Hin) as R. cbn [fst] in *. rewrite LZ, startOf_nonneg by lia. exact R.
Qed.
Lemma swaps_old i j : swaps (kp_before p) (kp_after p) i j -> exists i' j', swaps b a i' j'.
Proof using B.
  intros (L & N & H1 & H2 & R1 & R2 & O). rewrite zlen_before in R2. pose proof (row_at i) as RI. pose proof (row_at j) as RJ.
  assert (EI : exists oi, oldOf i = Some oi). { destruct (oldOf i) eqn:E; [eauto|]. destruct RI as (X & _). apply zget_None in X. rewrite zlen_coords in X. lia. }
  assert (EJ : exists oj, oldOf j = Some oj). { destruct (oldOf j) eqn:E; [eauto|]. destruct RJ as (X & _). apply zget_None in X. rewrite zlen_coords in X. lia. }
  destruct EI as [oi EI], EJ as [oj EJ]. rewrite EI in RI. rewrite EJ in RJ. destruct RI as (ci & si & ti & _ & _ & BI & BI' & AI & AI' & _). destruct RJ as (cj & sj & tj & _ & _ & BJ & BJ' & AJ & AJ' & _).
  rewrite BI', BJ' in *. rewrite AI', AJ' in *. pose proof (oldOf_range _ _ EI) as [RRi _]. pose proof (oldOf_range _ _ EJ) as [RRj _]. assert (NE : oi <> oj) by (intros ->; assert (i = j) by (apply (oldOf_inj i j oj); assumption); lia).
  assert (OO : forall k, k <> oi -> k <> oj -> zget b k = zget a k).
  { intros k K1 K2. destruct (Z_lt_ge_dec k 0); [rewrite !(proj2 (zget_None _ _)) by lia; reflexivity|]. destruct (Z_lt_ge_dec k (zlen cs)).
    - destruct (oldOf_onto k ltac:(lia)) as [m M]. pose proof (row_at m) as RM. rewrite M in RM. destruct RM as (c & s & t & _ & _ & E1 & F1 & E2 & F2 & _). assert (m <> i) by congruence. assert (m <> j) by congruence. specialize (O m ltac:(assumption) ltac:(assumption)). congruence.
    - rewrite !(proj2 (zget_None _ _)); [reflexivity| |]; rewrite ?(bb_la _ _ _ _ _ _ _ _ _ _ B), ?(bb_lb _ _ _ _ _ _ _ _ _ _ B); lia. }
  destruct (Z_lt_ge_dec oi oj).
  - exists oi, oj. split; [lia|]. rewrite BI, BJ, AI, AJ, (bb_lb _ _ _ _ _ _ _ _ _ _ B). repeat split; try assumption; try lia.
  - exists oj, oi. split; [lia|]. rewrite BI, BJ, AI, AJ, (bb_lb _ _ _ _ _ _ _ _ _ _ B). repeat split; try assumption; try lia; try (intros X; symmetry in X; contradiction). intros k K1 K2. apply OO; assumption.
Qed.
Lemma leads_again k v i k' j' : In (k, v) (kp_moves p) -> In (i, v) mvs -> oldOf k = Some (startOf (zlen cs) i) -> leads (kp_coords p) (k, v) k' j' <-> k' = k /\ exists o, oldOf j' = Some o /\ leads cs (i, v) (startOf (zlen cs) i) o.
Proof using B ND HS.
  intros H1 H2 K. pose proof (kp_moves_range _ _ _ _ _ _ _ _ _ _ B HS _ H1) as R. cbn [fst] in R. pose proof (row_at k) as RK. rewrite K in RK. destruct RK as (c & s & t & C & D & _).
  assert (SH : forall x y, csub x (hd czero cs) = cadd (csub y (hd czero cs)) v <-> x = cadd y v). { intros x y. split; intros E; destruct x, y, v, (hd czero cs); unfold csub, cadd in *; cbn in *; injection E; intros; f_equal; lia. }
  unfold leads. cbn [fst snd]. rewrite zlen_coords, (startOf_nonneg _ k) by lia. split.
  - intros (-> & x & X1 & X2 & X3). split; [reflexivity|]. rewrite D in X1. injection X1 as <-. pose proof (row_at j') as RJ. destruct (oldOf j') as [o|]; [|destruct RJ as (X & _); congruence]. destruct RJ as (c' & s' & t' & C' & D' & _). exists o. split; [reflexivity|]. split; [reflexivity|]. exists c. split; [exact C|].
    assert (EC : c' = cadd c v) by (apply SH; congruence). split; [congruence|]. intros j'' Hj Hx. rewrite <- EC in Hx. pose proof (zget_NoDup_inj _ _ _ _ NoDup_cs Hx C'). lia.
  - intros (-> & o & O & (_ & x & X1 & X2 & X3)). rewrite C in X1. injection X1 as <-. split; [reflexivity|]. exists (csub c (hd czero cs)). split; [exact D|]. pose proof (row_at j') as RJ. rewrite O in RJ. destruct RJ as (c' & s' & t' & C' & D' & _). assert (EC : c' = cadd c v) by congruence.
    apply SH in EC. split; [congruence|]. intros j'' Hj Hx. rewrite <- EC in Hx. pose proof (zget_NoDup_inj _ _ _ _ ND Hx D'). lia.
Qed.
Lemma explain_again : explain cs b a mvs -> explain (kp_coords p) (kp_before p) (kp_after p) (kp_moves p).
Proof using B ND HS.
  intros [X1 X2]. split.
  - intros [k v] Hin. pose proof Hin as Hk. apply (kp_moves_In _ _ _ _ _ _ _ _ _ _ B HS) in Hin. destruct Hin as (i & Hi & K). fold rows in K. change (oldOf k = Some (startOf (zlen cs) i)) in K. destruct (X1 (i, v) Hi) as (k0 & o & s & L & Bs & As). destruct L as (-> & L). cbn [fst] in *.
    assert (LL : leads cs (i, v) (startOf (zlen cs) i) o) by (split; [reflexivity|exact L]). assert (Ro : 0 <= o < zlen cs) by (destruct L as (x & _ & Y & _); exact (zget_range _ _ _ Y)). destruct (oldOf_onto o Ro) as [j J].
    exists k, j, s. split; [apply (leads_again k v i k j Hk Hi K); split; [reflexivity|]; eauto|]. pose proof (row_at k) as RK. rewrite K in RK. destruct RK as (c & s1 & t1 & _ & _ & E1 & F1 & _). pose proof (row_at j) as RJ. rewrite J in RJ. destruct RJ as (c' & s2 & t2 & _ & _ & _ & _ & E2 & F2 & _). split; congruence.
  - intros j. pose proof (row_at j) as RJ. destruct (oldOf j) as [o|] eqn:J.
    + destruct RJ as (c & s & t & _ & _ & E1 & F1 & E2 & F2 & _). destruct (X2 o) as [([i v] & k0 & Hi & L & Y)|[Y1 Y2]].
      * left. destruct L as (-> & L). cbn [fst] in *. assert (Rk : 0 <= startOf (zlen cs) i < zlen cs) by (destruct L as (x & Z0 & _); exact (zget_range _ _ _ Z0)). destruct (oldOf_onto _ Rk) as [k K].
        assert (Hk : In (k, v) (kp_moves p)) by (apply (kp_moves_In _ _ _ _ _ _ _ _ _ _ B HS); exists i; auto). exists (k, v), k. split; [exact Hk|]. split; [apply (leads_again k v i k j Hk Hi K); split; [reflexivity|]; exists o; split; [exact J|]; split; [reflexivity|exact L]|].
        pose proof (row_at k) as RK. rewrite K in RK. destruct RK as (c' & s' & t' & _ & _ & E3 & F3 & _). congruence.
      * right. split; [|congruence]. intros [k v] k' Hk L. pose proof Hk as Hk'. apply (kp_moves_In _ _ _ _ _ _ _ _ _ _ B HS) in Hk'. destruct Hk' as (i & Hi & K). apply (leads_again k v i k' j Hk Hi K) in L. destruct L as (-> & o' & J' & L). rewrite J in J'. injection J' as <-. exact (Y1 (i, v) _ Hi L).
    + right. destruct RJ as (Z1 & Z2 & Z3 & _). split; [|congruence]. intros [k v] k' Hk (_ & x & _ & Y & _). congruence.
Qed.
Lemma moves_nil : kp_moves p = [] -> mvs = [].
Proof using B HS.
  intros E. assert (X : forall iv, ~ In iv mvs).
  - intros [i v] Hin. pose proof (start_range _ _ _ _ _ _ _ _ _ _ B HS (i, v) Hin) as R. cbn [fst] in R. destruct (oldOf_onto _ R) as [k K]. assert (X : In (k, v) (kp_moves p)) by (apply (kp_moves_In _ _ _ _ _ _ _ _ _ _ B HS); exists i; split; [exact Hin|exact K]). rewrite E in X. destruct X.
  - revert X. generalize mvs. clear. intros [|x l] X; [reflexivity|]. exfalso. apply (X x). left. reflexivity.
Qed.
Lemma vectors_again : checkMoveVectors S (kp_coords p) (kp_before p) (kp_after p) (match kp_moves p with [] => VNone | l => pyMoves l end) = Ok (kp_moves p).
Proof using B ND HS.
  pose proof (bb_moves _ _ _ _ _ _ _ _ _ _ B) as M. pose proof (bb_lb _ _ _ _ _ _ _ _ _ _ B) as Lb. pose proof (bb_la _ _ _ _ _ _ _ _ _ _ B) as La. pose proof (bb_change _ _ _ _ _ _ _ _ _ _ B) as N.
  destruct (kp_moves p) as [|mv l] eqn:E.
  - pose proof (moves_nil E) as EM. rewrite EM in M. pose proof (checkMoveVectors_nil S cs b a moves HS Lb La N M) as NS. unfold checkMoveVectors. destruct (reconstruct_cases (kp_coords p) (kp_before p) (kp_after p)) as [(i & j & _ & _ & SW & _)|[_ ->]]; [rewrite zlen_before, zlen_coords; reflexivity|rewrite zlen_after, zlen_coords; reflexivity| |reflexivity].
    exfalso. destruct (swaps_old i j SW) as (i' & j' & SW'). exact (NS i' j' SW').
  - rewrite <- E. assert (EX : explain cs b a mvs). { apply (checkMoveVectors_explain S cs b a moves mvs HS Lb La); [|exact M]. intros EM. assert (K := bb_kmoves _ _ _ _ _ _ _ _ _ _ B). rewrite EM in K. cbn in K. injection K as K. congruence. }
    pose proof (checkMoveVectors_ok S (kp_coords p) (kp_before p) (kp_after p) (pyMoves (kp_moves p)) (kp_moves p) HS) as OK. rewrite coords_centred in OK. apply OK; [rewrite zlen_before, zlen_coords; reflexivity|rewrite zlen_after, zlen_coords; reflexivity|apply explain_again; exact EX|].
    unfold pyMoves. unfold seqOf. cbn [asSeq MPy.obind]. assert (R : oall moveOf (map (fun iv => VTuple [VInt (fst iv); pyv (snd iv)]) (kp_moves p)) = Ok (kp_moves p)); [|rewrite R; reflexivity].
    clear. induction (kp_moves p) as [|[i [x y z]] l IH]; [reflexivity|]. change (oall moveOf (map (fun iv => VTuple [VInt (fst iv); pyv (snd iv)]) ((i, mkC x y z) :: l))) with (try r <- oall moveOf (map (fun iv => VTuple [VInt (fst iv); pyv (snd iv)]) l) ;; Ok ((i, mkC x y z) :: r)). rewrite IH. reflexivity.
Qed.
End Again.
Lemma checkCoordinateList_py cs : cs <> [] -> checkCoordinateList (pyCoords cs) = Ok cs.
Proof.
  intros H. apply readsCoords_ok; [exact H|]. exists (map pyv cs). split; [reflexivity|]. clear. induction cs as [|c cs IH]; [constructor|]. cbn [map]. constructor; [reflexivity|exact IH].
Qed.
Lemma checkBasis_py v bs : checkBasis v = Ok bs -> checkBasis (pyBasis bs) = Ok bs.
Proof.
  unfold checkBasis. intros H. destruct (seqOf v) as [l|]; cbn [MPy.obind] in H; [|discriminate]. destruct (Z.eqb_spec (zlen l) 0) as [|N]; [discriminate|]. unfold pyBasis, seqOf. cbn [asSeq MPy.obind]. rewrite zlen_map.
  assert (LE : zlen l = zlen bs) by (apply (Forall2_zlen _ _ _ (proj1 (oall_Forall2 _ _ _) H))). destruct (Z.eqb_spec (zlen bs) 0); [lia|]. clear N n LE. revert bs H. induction l as [|x l IH]; intros bs H; cbn [oall] in H; [injection H as <-; reflexivity|].
  destruct (asInt x) as [z|] eqn:EZ; cbn [MPy.obind] in H; [|discriminate]. destruct (Z.ltb_spec z 0) as [|Hz]; cbn [MPy.obind] in H; [discriminate|]. destruct (oall _ l) as [zs|] eqn:E; cbn [MPy.obind] in H; [|discriminate]. injection H as <-. cbn [map oall asInt]. destruct (Z.ltb_spec z 0); [lia|]. cbn [MPy.obind]. rewrite IH by reflexivity. reflexivity.
Qed.
Lemma checkRate_py v r : checkRate v = Ok r -> checkRate (VFloat (FNum r)) = Ok r.
Proof. destruct v as [| | |[x| | |]| | | |]; cbn; try discriminate. destruct (x <? 0) eqn:E; [discriminate|]. intros H. injection H as <-. rewrite E. reflexivity. Qed.
(** a process made of the data of a process *)
Theorem KMCProcess_again S p : 0 < S <= 100000000 -> made S p -> NoDup (kp_coords p) ->
  KMCProcess S (pyCoords (kp_coords p)) (pyNames (kp_before p)) (pyNames (kp_after p)) (match kp_moves p with [] => VNone | l => pyMoves l end) (pyBasis (kp_basis p)) (VFloat (FNum (kp_rate p))) = Ok p.
Proof.
  intros HS (co & be & af & mo & ba & ra & H) ND. apply KMCProcess_inv in H. destruct H as (cs & b & a & mvs & B & EB & ER). unfold KMCProcess. rewrite checkCoordinateList_py by (eapply coords_ne; eauto). cbn [MPy.obind]. rewrite (checkBasis_py _ _ EB), (checkRate_py _ _ ER). cbn [MPy.obind pyNames].
  rewrite (coords_centred _ _ _ _ _ _ _ _ _ _ B). assert (L1 := zlen_before _ _ _ _ _ _ _ _ _ _ B). assert (L2 := zlen_after _ _ _ _ _ _ _ _ _ _ B). assert (L3 := zlen_coords _ _ _ _ _ _ _ _ _ _ B).
  rewrite L3, <- L1, checkTypes_ok. cbn [MPy.obind]. rewrite L1, <- L2, checkTypes_ok. cbn [MPy.obind]. rewrite (proj2 (checkMoveElements_ok _ _)) by (split; [eapply wild_again; eauto|eapply change_again; eauto]). cbn [MPy.obind].
  rewrite (vectors_again S HS _ _ _ _ _ _ _ _ _ B ND). cbn [MPy.obind]. rewrite (rows_again _ _ _ _ _ _ _ _ _ _ B), (moves_again S HS _ _ _ _ _ _ _ _ _ B). cbn [MPy.obind]. f_equal.
  assert (EC : map sr_c (sbase (kp_coords p) (kp_before p) (kp_after p)) = kp_coords p /\ map sr_before (sbase (kp_coords p) (kp_before p) (kp_after p)) = kp_before p /\ map sr_after (sbase (kp_coords p) (kp_before p) (kp_after p)) = kp_after p).
  { repeat split; apply PBase.zget_ext; intros k; rewrite zget_map, sbase_zget by lia; (destruct (zget (kp_coords p) k) as [c|] eqn:E1; [pose proof (zget_range _ _ _ E1); destruct (zget_lt (kp_before p) k) as [s E2]; [lia|]; destruct (zget_lt (kp_after p) k) as [t E3]; [lia|]; rewrite E2, E3; reflexivity|]);
    apply zget_None in E1; try reflexivity; symmetry; apply zget_None; lia. }
  destruct EC as (-> & -> & ->). rewrite (coords_centred _ _ _ _ _ _ _ _ _ _ B). destruct p; reflexivity.
Qed.
