(** Theorems about the process constructors: C44, C45, C53, C54. *)
From Verif Require Import PTypes TTypes PTotal PPyProcess.
From Verif Require Import SPyProcess SBucket.
Open Scope string_scope.
Open Scope list_scope.
Open Scope Z_scope.

(** ** C44: explicit move vectors *)
(** applying the vectors to the types before gives the types after *)
Definition explain (cs : list coord) (b a : list string) (mvs : list (Z * coord)) : Prop :=
  (forall iv, In iv mvs -> exists k j s, leads cs iv k j /\ zget b k = Some s /\ zget a j = Some s) /\
  (forall j, (exists iv k, In iv mvs /\ leads cs iv k j /\ zget a j = zget b k) \/ ((forall iv k, In iv mvs -> ~ leads cs iv k j) /\ zget a j = zget b j)).
Lemma readsMoves_none v mvs : readsMoves v mvs -> v <> VNone.
Proof. intros (l & E & _) ->. discriminate. Qed.
Lemma given_read v cs b a : v <> VNone -> (match v with VNone => reconstruct cs b a | _ => try l <- seqOf v ;; try mvs <- oall moveOf l ;; Ok (Some mvs) end) = try mvs <- (try l <- seqOf v ;; oall moveOf l) ;; Ok (Some mvs).
Proof. intros N. destruct v; try reflexivity; try congruence; unfold seqOf; cbn [asSeq MPy.obind]; reflexivity. Qed.
Lemma checkMoveVectors_inv S cs b a v mvs : 0 < S <= 100000000 -> zlen b = zlen cs -> zlen a = zlen cs -> v <> VNone -> checkMoveVectors S (centred cs) b a v = Ok mvs -> readsMoves v mvs /\ explain cs b a mvs.
Proof.
  intros HS Lb La N H. unfold checkMoveVectors in H. rewrite given_read in H by exact N. destruct (MPy.obind (seqOf v) _) as [g|] eqn:E; cbn [MPy.obind] in H; [|discriminate]. apply readsMoves_ok in E.
  destruct (applyMoves S (centred cs) b a b g) as [moved|] eqn:EA; cbn [MPy.obind] in H; [|discriminate]. destruct (listEq String.eqb a moved) eqn:EL; [|discriminate]. apply listEq_str in EL. subst moved. injection H as ->. split; [exact E|].
  apply applyMoves_inv in EA; rewrite ?centred_zlen; auto. destruct EA as (A1 & A2 & _). split.
  - intros iv Hin. destruct (A1 iv Hin) as (k & j & s & L & X). exists k, j, s. split; [apply leads_centred; exact L|exact X].
  - intros j. destruct (A2 j) as [(iv & k & I & L & X)|[X1 X2]]; [left; exists iv, k; split; [exact I|]; split; [apply leads_centred; exact L|exact X]|]. right. split; [|exact X2]. intros iv k I L. apply (X1 iv k I). apply leads_centred. exact L.
Qed.
Lemma checkMoveVectors_ok S cs b a v mvs : 0 < S <= 100000000 -> zlen b = zlen cs -> zlen a = zlen cs -> explain cs b a mvs ->
  (match v with VNone => reconstruct (centred cs) b a | _ => try l <- seqOf v ;; try mvs <- oall moveOf l ;; Ok (Some mvs) end) = Ok (Some mvs) -> checkMoveVectors S (centred cs) b a v = Ok mvs.
Proof.
  intros HS Lb La [X1 X2] G. unfold checkMoveVectors. rewrite G. cbn [MPy.obind].
  destruct (applyMoves_total S HS (centred cs) b a ltac:(rewrite centred_zlen; lia) ltac:(rewrite centred_zlen; lia) mvs b) as [moved EM]; [rewrite centred_zlen; lia| |].
  - intros iv Hin. destruct (X1 iv Hin) as (k & j & s & L & Y). exists k, j, s. split; [apply leads_centred; exact L|exact Y].
  - rewrite EM. cbn [MPy.obind]. apply applyMoves_inv in EM; rewrite ?centred_zlen; auto. destruct EM as (A1 & A2 & A3). rewrite centred_zlen in A3. assert (EQ : a = moved); [|subst moved; rewrite (proj2 (listEq_str a a) eq_refl); reflexivity].
    apply PBase.zget_ext. intros j. destruct (A2 j) as [(iv & k & I & L & Y)|[Y1 Y2]].
    + rewrite Y. destruct (X1 iv I) as (k' & j' & s & L' & B & A). apply (proj1 (leads_centred _ _ _ _)) in L. destruct (leads_fun _ _ _ _ _ _ L L') as [-> ->]. congruence.
    + rewrite Y2. destruct (X2 j) as [(iv & k & I & L & Y)|[_ Y]]; [|exact Y]. exfalso. apply (Y1 iv k I). apply leads_centred. exact L.
Qed.

(** Vectors that are accepted lead from positions of the process to positions of the process and turn the types before into the types after.
    Missing from C44: that no two vectors start or end at the same position, see [C44_distinct_refuted]. *)
Theorem C44_explains_partial S coordinates before after moves basis rate p : 0 < S <= 100000000 -> moves <> VNone ->
  KMCProcess S coordinates before after moves basis rate = Ok p ->
  exists cs b a mvs, readsCoords coordinates cs /\ readsNames before b /\ readsNames after a /\ readsMoves moves mvs /\ explain cs b a mvs.
Proof.
  intros HS N H. apply KMCProcess_inv in H. destruct H as (cs & b & a & mvs & B & _ & _). exists cs, b, a, mvs. split; [apply B|]. split; [apply B|]. split; [apply B|]. apply (checkMoveVectors_inv S cs b a moves mvs); auto; apply B.
Qed.
(** Conversely vectors that explain the process are accepted. *)
Theorem C44_accepts S coordinates before after moves basis rate cs b a mvs bs r : 0 < S <= 100000000 ->
  readsCoords coordinates cs -> cs <> [] -> readsNames before b -> readsNames after a -> zlen b = zlen cs -> zlen a = zlen cs -> map (String.eqb "*") b = map (String.eqb "*") a -> b <> a ->
  checkBasis basis = Ok bs -> checkRate rate = Ok r -> readsMoves moves mvs -> explain cs b a mvs -> exists p, KMCProcess S coordinates before after moves basis rate = Ok p.
Proof.
  intros HS Rc NE Rb Ra Lb La W N Eb Er Rm X. pose proof (readsMoves_none _ _ Rm) as NN.
  assert (EM : checkMoveVectors S (centred cs) b a moves = Ok mvs). { apply checkMoveVectors_ok; auto. rewrite given_read by exact NN. apply readsMoves_ok in Rm. rewrite Rm. reflexivity. }
  eapply KMCProcess_ok; eauto. intros iv Hin. destruct X as [X _]. destruct (X iv Hin) as (k & j & s & (-> & c & C & _) & _). exact (zget_range _ _ _ C).
Qed.
(** The process object holds the rows the user gave, in another order, and hands the vectors to the backend with the rows they start from. *)
Theorem C44_rows S coordinates before after moves basis rate p : 0 < S <= 100000000 -> KMCProcess S coordinates before after moves basis rate = Ok p ->
  exists cs b a mvs, readsCoords coordinates cs /\ readsNames before b /\ readsNames after a /\ (moves = VNone \/ readsMoves moves mvs) /\
    (NoDup (map (fun iv => startOf (zlen cs) (fst iv)) mvs) -> Permutation (kpRows p) (rowsOf cs b a mvs) /\ movesGiven (kpRows p) (map fst (kp_moves p)) (map snd (kp_moves p))).
Proof.
  intros HS H. apply KMCProcess_inv in H. destruct H as (cs & b & a & mvs & B & _ & _). exists cs, b, a, mvs. split; [apply B|]. split; [apply B|]. split; [apply B|]. split.
  - assert (D : moves = VNone \/ moves <> VNone) by (destruct moves; auto; right; discriminate). destruct D as [D|D]; [auto|]. right. apply (checkMoveVectors_inv S cs b a moves mvs); auto; apply B.
  - intros ND. split; [eapply kpRows_perm; eauto|eapply kpRows_movesGiven; eauto].
Qed.

(** *** two vectors may start or end at the same position *)
Definition pyv (c : coord) : pyval := VList [VFloat (FNum (cx c)); VFloat (FNum (cy c)); VFloat (FNum (cz c))].
Definition pyCoords (cs : list coord) : pyval := VList (map pyv cs).
Definition pyNames (l : list string) : pyval := VList (map VStr l).
Definition pyMoves (mvs : list (Z * coord)) : pyval := VList (map (fun iv => VTuple [VInt (fst iv); pyv (snd iv)]) mvs).
Definition pyBasis (l : list Z) : pyval := VList (map VInt l).
Definition isOk {A} (o : outcome A) : bool := match o with Ok _ => true | Raise _ => false end.
Definition raises {A} (o : outcome A) : bool := match o with Raise KmcError => true | _ => false end.

Theorem C44_distinct_refuted :
  (* two vectors end at the same position *)
  (exists p, KMCProcess 10 (pyCoords [mkC 0 0 0; mkC 10 0 0; mkC 0 10 0]) (pyNames ["A"; "A"; "V"]) (pyNames ["A"; "A"; "A"]) (pyMoves [(0, mkC 0 10 0); (1, mkC (-10) 10 0)]) (pyBasis [0]) (VFloat (FNum 1)) = Ok p) /\
  (* two vectors start at the same position *)
  (exists p, KMCProcess 10 (pyCoords [mkC 0 0 0; mkC 10 0 0; mkC 0 10 0]) (pyNames ["A"; "V"; "V"]) (pyNames ["A"; "A"; "A"]) (pyMoves [(0, mkC 10 0 0); (0, mkC 0 10 0)]) (pyBasis [0]) (VFloat (FNum 1)) = Ok p).
Proof. split; vm_compute; eexists; reflexivity. Qed.
(** a hop given with explicit vectors is accepted; a vector that leads nowhere, one that brings the wrong type, and a change without a vector are rejected; a negative index counts from the end *)
Example C44_hop :
  (exists p, KMCProcess 10 (pyCoords [mkC 5 5 5; mkC 5 5 15]) (pyNames ["A"; "V"]) (pyNames ["V"; "A"]) (pyMoves [(0, mkC 0 0 10); (1, mkC 0 0 (-10))]) (pyBasis [0]) (VFloat (FNum 1)) = Ok p /\
     kpRows p = [mkRow (mkC 0 0 0) "A" "V" (Some (mkC 0 0 10)); mkRow (mkC 0 0 10) "V" "A" (Some (mkC 0 0 (-10)))]) /\
  isOk (KMCProcess 10 (pyCoords [mkC 5 5 5; mkC 5 5 15]) (pyNames ["A"; "V"]) (pyNames ["V"; "A"]) (pyMoves [(-2, mkC 0 0 10); (-1, mkC 0 0 (-10))]) (pyBasis [0]) (VFloat (FNum 1))) = true /\
  raises (KMCProcess 10 (pyCoords [mkC 5 5 5; mkC 5 5 15]) (pyNames ["A"; "V"]) (pyNames ["V"; "A"]) (pyMoves [(0, mkC 0 0 20); (1, mkC 0 0 (-10))]) (pyBasis [0]) (VFloat (FNum 1))) = true /\
  raises (KMCProcess 10 (pyCoords [mkC 5 5 5; mkC 5 5 15]) (pyNames ["A"; "V"]) (pyNames ["V"; "A"]) (pyMoves [(0, mkC 0 0 10)]) (pyBasis [0]) (VFloat (FNum 1))) = true.
Proof. vm_compute. repeat split. eexists. repeat split. Qed.
Example C44_explains_case : explain [mkC 5 5 5; mkC 5 5 15] ["A"; "V"] ["V"; "A"] [(0, mkC 0 0 10); (1, mkC 0 0 (-10))].
Proof.
  assert (L0 : leads [mkC 5 5 5; mkC 5 5 15] (0, mkC 0 0 10) 0 1). { split; [reflexivity|]. exists (mkC 5 5 5). split; [reflexivity|]. split; [reflexivity|]. intros j Hj. assert (j = 0) by lia. subst j. discriminate. }
  assert (L1 : leads [mkC 5 5 5; mkC 5 5 15] (1, mkC 0 0 (-10)) 1 0). { split; [reflexivity|]. exists (mkC 5 5 15). split; [reflexivity|]. split; [reflexivity|]. intros j Hj. lia. }
  split.
  - intros iv [<-|[<-|[]]]; [exists 0, 1, "A"|exists 1, 0, "V"]; auto.
  - intros j. destruct (Z.eq_dec j 0) as [->|n0]; [left; exists (1, mkC 0 0 (-10)), 1; cbn; auto|]. destruct (Z.eq_dec j 1) as [->|n1]; [left; exists (0, mkC 0 0 10), 0; cbn; auto|]. right. split.
    + intros iv k [<-|[<-|[]]] L; [destruct (leads_fun _ _ _ _ _ _ L L0)|destruct (leads_fun _ _ _ _ _ _ L L1)]; lia.
    + rewrite !(proj2 (zget_None _ _)); [reflexivity| |]; cbn; lia.
Qed.

(** ** C45: the default vectors *)
Lemma swap_explains cs b a i j ci cj : zlen b = zlen cs -> zlen a = zlen cs -> NoDup cs -> swaps b a i j -> zget cs i = Some ci -> zget cs j = Some cj -> explain cs b a [(i, csub cj ci); (j, csub ci cj)].
Proof.
  intros Lb La ND (L & N & H1 & H2 & R1 & R2 & O) Ei Ej.
  assert (E1 : cadd ci (csub cj ci) = cj) by coords. assert (E2 : cadd cj (csub ci cj) = ci) by coords.
  assert (L0 : leads cs (i, csub cj ci) i j). { split; [cbn [fst]; rewrite startOf_nonneg by lia; reflexivity|]. exists ci. cbn [snd]. rewrite E1. split; [exact Ei|]. split; [exact Ej|]. intros k Hk X. pose proof (zget_NoDup_inj _ _ _ _ ND X Ej). lia. }
  assert (L1 : leads cs (j, csub ci cj) j i). { split; [cbn [fst]; rewrite startOf_nonneg by lia; reflexivity|]. exists cj. cbn [snd]. rewrite E2. split; [exact Ej|]. split; [exact Ei|]. intros k Hk X. pose proof (zget_NoDup_inj _ _ _ _ ND X Ei). lia. }
  destruct (zget_lt b i) as [x X]; [lia|]. destruct (zget_lt b j) as [y Y]; [lia|]. split.
  - intros iv [<-|[<-|[]]]; [exists i, j, x|exists j, i, y]; (split; [assumption|]); split; congruence.
  - intros k. destruct (Z.eq_dec k i) as [->|ni]; [left; exists (j, csub ci cj), j; cbn [In]; auto|]. destruct (Z.eq_dec k j) as [->|nj]; [left; exists (i, csub cj ci), i; cbn [In]; auto|]. right. split; [|symmetry; apply O; assumption].
    intros iv k' [<-|[<-|[]]] LL; [destruct (leads_fun _ _ _ _ _ _ LL L0)|destruct (leads_fun _ _ _ _ _ _ LL L1)]; congruence.
Qed.
(** Two positions that exchange their types, nothing else changing, and no vectors given: the process is accepted, and its rows are those of the user with
    the vector from each of the two positions to the other one. *)
Theorem C45_swap S coordinates before after basis rate cs b a bs r i j ci cj : 0 < S <= 100000000 ->
  readsCoords coordinates cs -> NoDup cs -> readsNames before b -> readsNames after a -> zlen b = zlen cs -> zlen a = zlen cs -> map (String.eqb "*") b = map (String.eqb "*") a -> checkBasis basis = Ok bs -> checkRate rate = Ok r ->
  swaps b a i j -> zget cs i = Some ci -> zget cs j = Some cj ->
  exists p, KMCProcess S coordinates before after VNone basis rate = Ok p /\ Permutation (kpRows p) (rowsOf cs b a [(i, csub cj ci); (j, csub ci cj)]) /\ movesGiven (kpRows p) (map fst (kp_moves p)) (map snd (kp_moves p)).
Proof.
  intros HS Rc ND Rb Ra Lb La W Eb Er SW Ei Ej. pose proof SW as (L & N & _ & _ & R1 & R2 & _).
  assert (NE : cs <> []) by (intros ->; rewrite zget_nil in Ei; discriminate).
  assert (NB : b <> a). { intros ->. destruct SW as (_ & X & Y & _). congruence. }
  assert (EM : checkMoveVectors S (centred cs) b a VNone = Ok [(i, csub cj ci); (j, csub ci cj)]).
  { apply checkMoveVectors_ok; auto; [apply swap_explains; assumption|]. destruct (reconstruct_cases (centred cs) b a) as [(i' & j' & ci' & cj' & SW' & Ei' & Ej' & ->)|[X _]]; rewrite ?centred_zlen; auto; [|exfalso; exact (X i j SW)].
    destruct (swaps_differing b a i j ltac:(lia) SW) as (x & y & _ & _ & _ & D1). destruct (swaps_differing b a i' j' ltac:(lia) SW') as (x' & y' & _ & _ & _ & D2). rewrite D1 in D2. assert (i' = i) by congruence. assert (j' = j) by congruence. clear D1 D2. subst i' j'.
    rewrite centred_zget, Ei in Ei'. rewrite centred_zget, Ej in Ej'. cbn [option_map] in *. assert (ci' = csub ci (hd czero cs)) by congruence. assert (cj' = csub cj (hd czero cs)) by congruence. subst ci' cj'. assert (SS : forall x y h, csub (csub x h) (csub y h) = csub x y) by (intros; coords). rewrite !SS. reflexivity. }
  destruct (KMCProcess_ok S coordinates before after VNone basis rate cs b a _ bs r NE Rc Rb Ra Lb La W NB Eb Er EM) as [p HP].
  { intros iv [<-|[<-|[]]]; cbn [fst]; rewrite startOf_nonneg; lia. }
  exists p. split; [exact HP|]. apply KMCProcess_inv in HP. destruct HP as (cs' & b' & a' & mvs' & B & _ & _).
  assert (cs' = cs). { pose proof (bb_cs _ _ _ _ _ _ _ _ _ _ B) as X. apply readsCoords_ok in X; [|apply B]. apply readsCoords_ok in Rc; [|exact NE]. congruence. }
  assert (b' = b). { pose proof (bb_b _ _ _ _ _ _ _ _ _ _ B) as X. unfold readsNames in X, Rb. rewrite Rb in X. injection X as X. pose proof (f_equal (flat_map (fun v => match v with VStr s => [s] | _ => [] end)) X) as Y. rewrite !flat_strs in Y. congruence. }
  assert (a' = a). { pose proof (bb_a _ _ _ _ _ _ _ _ _ _ B) as X. unfold readsNames in X, Ra. rewrite Ra in X. injection X as X. pose proof (f_equal (flat_map (fun v => match v with VStr s => [s] | _ => [] end)) X) as Y. rewrite !flat_strs in Y. congruence. }
  subst cs' b' a'. pose proof (bb_moves _ _ _ _ _ _ _ _ _ _ B) as X. rewrite EM in X. injection X as <-.
  assert (NDs : NoDup (starts (zlen cs) [(i, csub cj ci); (j, csub ci cj)])). { cbn [starts map fst]. rewrite !startOf_nonneg by lia. constructor; [intros [X|[]]; lia|]. constructor; [intros []|constructor]. }
  split; [eapply kpRows_perm; eauto|eapply kpRows_movesGiven; eauto].
Qed.
(** In all other cases the process has no vectors. *)
Theorem C45_none S coordinates before after basis rate cs b a p : KMCProcess S coordinates before after VNone basis rate = Ok p ->
  readsCoords coordinates cs -> readsNames before b -> readsNames after a -> (forall i j, ~ swaps b a i j) -> kp_moves p = [].
Proof.
  intros HP Rc Rb Ra NS. apply KMCProcess_inv in HP. destruct HP as (cs' & b' & a' & mvs' & B & _ & _).
  assert (b' = b). { pose proof (bb_b _ _ _ _ _ _ _ _ _ _ B) as X. unfold readsNames in X, Rb. rewrite Rb in X. injection X as X. pose proof (f_equal (flat_map (fun v => match v with VStr s => [s] | _ => [] end)) X) as Y. rewrite !flat_strs in Y. congruence. }
  assert (a' = a). { pose proof (bb_a _ _ _ _ _ _ _ _ _ _ B) as X. unfold readsNames in X, Ra. rewrite Ra in X. injection X as X. pose proof (f_equal (flat_map (fun v => match v with VStr s => [s] | _ => [] end)) X) as Y. rewrite !flat_strs in Y. congruence. }
  subst b' a'. pose proof (bb_moves _ _ _ _ _ _ _ _ _ _ B) as X. unfold checkMoveVectors in X. destruct (reconstruct_cases (centred cs') b a) as [(i & j & _ & _ & SW & _)|[_ E]]; rewrite ?centred_zlen; try (apply B); [exfalso; exact (NS i j SW)|]. rewrite E in X. cbn [MPy.obind] in X. injection X as <-.
  pose proof (bb_kmoves _ _ _ _ _ _ _ _ _ _ B) as K. unfold resortMoves in K. cbn in K. injection K as <-. reflexivity.
Qed.
Example C45_case :
  (exists p, KMCProcess 10 (pyCoords [mkC 5 5 5; mkC 5 5 15; mkC 5 5 (-5)]) (pyNames ["A"; "B"; "V"]) (pyNames ["A"; "V"; "B"]) VNone (pyBasis [0]) (VFloat (FNum 1)) = Ok p /\
     kpRows p = [mkRow (mkC 0 0 0) "A" "A" None; mkRow (mkC 0 0 10) "B" "V" (Some (mkC 0 0 (-20))); mkRow (mkC 0 0 (-10)) "V" "B" (Some (mkC 0 0 20))]) /\
  swaps ["A"; "B"; "V"] ["A"; "V"; "B"] 1 2 /\
  (exists p, KMCProcess 10 (pyCoords [mkC 5 5 5; mkC 5 5 15]) (pyNames ["A"; "B"]) (pyNames ["B"; "B"]) VNone (pyBasis [0]) (VFloat (FNum 1)) = Ok p /\ kp_moves p = []).
Proof.
  split; [|split]; [vm_compute; eexists; split; reflexivity| |vm_compute; eexists; split; reflexivity].
  split; [lia|]. split; [discriminate|]. split; [reflexivity|]. split; [reflexivity|]. split; [lia|]. split; [cbn; lia|]. intros k H1 H2. destruct (Z.eq_dec k 0) as [->|]; [reflexivity|]. rewrite !(proj2 (zget_None _ _)); [reflexivity| |]; cbn; lia.
Qed.

(** ** C53: equality of processes *)
(** p was made by the constructor *)
Definition made (S : Z) (p : kproc) : Prop := exists coordinates before after moves basis rate, KMCProcess S coordinates before after moves basis rate = Ok p.
Lemma made_zlen S p : made S p -> zlen (kp_before p) = zlen (kp_coords p) /\ zlen (kp_after p) = zlen (kp_coords p).
Proof.
  intros (co & be & af & mo & ba & ra & H). apply KMCProcess_inv in H. destruct H as (cs & b & a & mvs & B & _ & _). rewrite (bb_before _ _ _ _ _ _ _ _ _ _ B), (bb_after _ _ _ _ _ _ _ _ _ _ B), (bb_coords _ _ _ _ _ _ _ _ _ _ B), centred_zlen, !zlen_map. auto.
Qed.
Lemma forallb_combine {A} (f : A -> A -> bool) l : forall m, forallb (fun x => f (fst x) (snd x)) (combine l m) = true <-> forall k x y, zget l k = Some x -> zget m k = Some y -> f x y = true.
Proof.
  intros m. rewrite forallb_forall. split.
  - intros H k x y X Y. apply (H (x, y)). apply (zget_In _ k). rewrite zget_combine, X, Y. reflexivity.
  - intros H [x y] Hin. apply In_zget in Hin. destruct Hin as [k Hk]. rewrite zget_combine in Hk. destruct (zget l k) as [x'|] eqn:X; [|discriminate]. destruct (zget m k) as [y'|] eqn:Y; [|discriminate]. injection Hk as -> ->. exact (H k x y X Y).
Qed.
Lemma same_lists {A} (f : A -> A -> bool) l m : (forall x y, f x y = true <-> x = y) -> zlen l = zlen m -> (forallb (fun x => f (fst x) (snd x)) (combine l m) = true <-> l = m).
Proof.
  intros HF HL. rewrite forallb_combine. split.
  - intros H. apply PBase.zget_ext. intros k. destruct (zget l k) as [x|] eqn:X, (zget m k) as [y|] eqn:Y; try reflexivity.
    + f_equal. apply HF. exact (H k x y X Y).
    + apply zget_range in X. apply zget_None in Y. lia.
    + apply zget_range in Y. apply zget_None in X. lia.
  - intros -> k x y X Y. apply HF. congruence.
Qed.
Lemma sum_term l : (forall x, In x l -> 0 <= x) -> forall x, In x l -> x <= zsum l.
Proof. induction l as [|a l IH]; intros H x Hx; [destruct Hx|]. rewrite zsum_cons. pose proof (H a (or_introl eq_refl)). assert (0 <= zsum l) by (apply zsum_nonneg; intros; apply H; right; assumption). destruct Hx as [->|Hx]; [lia|]. specialize (IH (fun y Hy => H y (or_intror Hy)) x Hx). lia. Qed.
Lemma cnorm2_nn c : 0 <= cnorm2 c. Proof. unfold cnorm2. nia. Qed.
Lemma close2_each S bound a b : 0 <= bound -> close2 S bound a b = true -> forall k x y, zget a k = Some x -> zget b k = Some y -> bound * cnorm2 (csub x y) <= S * S.
Proof.
  intros HB H k x y X Y. unfold close2 in H. apply Z.leb_le in H. assert (I : In (cnorm2 (csub x y)) (map (fun x => cnorm2 (csub (fst x) (snd x))) (combine a b))).
  { change (cnorm2 (csub x y)) with ((fun x => cnorm2 (csub (fst x) (snd x))) (x, y)). apply (in_map (fun x => cnorm2 (csub (fst x) (snd x)))). apply (zget_In _ k). rewrite zget_combine, X, Y. reflexivity. }
  apply sum_term in I; [nia|]. intros z Hz. apply in_map_iff in Hz. destruct Hz as (w & <- & _). apply cnorm2_nn.
Qed.
Lemma close2_refl S bound a : close2 S bound a a = true.
Proof. unfold close2. apply Z.leb_le. replace (zsum (map (fun x => cnorm2 (csub (fst x) (snd x))) (combine a a))) with 0; [nia|]. induction a as [|x a IH]; [reflexivity|]. cbn [combine map fst snd]. rewrite zsum_cons, csub_self, <- IH. reflexivity. Qed.
Lemma close2_sym S bound a b : close2 S bound a b = close2 S bound b a.
Proof. unfold close2. f_equal. f_equal. revert b. induction a as [|x a IH]; intros [|y b]; try reflexivity. cbn [combine map fst snd]. rewrite !zsum_cons, IH. f_equal. unfold cnorm2, csub. cbn [cx cy cz]. ring. Qed.
Lemma sym_combine {A} (f : A -> A -> bool) l : (forall x y, f x y = f y x) -> forall m, forallb (fun x => f (fst x) (snd x)) (combine l m) = forallb (fun x => f (fst x) (snd x)) (combine m l).
Proof. intros HF. induction l as [|x l IH]; intros [|y m]; try reflexivity. cbn [combine forallb fst snd]. rewrite IH, HF. reflexivity. Qed.

(** what it means that two processes are equal: same basis points, same number of positions, positions that agree within 1e-5, same types, and the same vectors within 1e-8 *)
Definition sameProcess (S : Z) (p q : kproc) : Prop :=
  kp_basis p = kp_basis q /\ zlen (kp_coords p) = zlen (kp_coords q) /\
  (forall k x y, zget (kp_coords p) k = Some x -> zget (kp_coords q) k = Some y -> 10000000000 * cnorm2 (csub x y) <= S * S) /\
  kp_before p = kp_before q /\ kp_after p = kp_after q /\ map fst (kp_moves p) = map fst (kp_moves q) /\
  (forall k x y, zget (map snd (kp_moves p)) k = Some x -> zget (map snd (kp_moves q)) k = Some y -> 10000000000000000 * cnorm2 (csub x y) <= S * S).
Theorem C53_reflexive S p : eqProcess S p p = true.
Proof.
  unfold eqProcess. rewrite !Z.eqb_refl, close2_refl. cbn [negb]. rewrite (proj2 (same_lists Z.eqb _ _ Z.eqb_eq eq_refl) eq_refl), !(proj2 (same_lists String.eqb _ _ String.eqb_eq eq_refl) eq_refl). cbn [negb].
  apply forallb_forall. intros [x y] Hin. apply In_zget in Hin. destruct Hin as [k Hk]. rewrite zget_combine in Hk. destruct (zget (kp_moves p) k) as [z|]; [|discriminate]. injection Hk as <- <-. cbn [fst snd]. rewrite Z.eqb_refl, close2_refl. reflexivity.
Qed.
Theorem C53_symmetric S p q : eqProcess S p q = eqProcess S q p.
Proof.
  unfold eqProcess. rewrite (Z.eqb_sym (zlen (kp_basis q))), (Z.eqb_sym (zlen (kp_coords q))), (Z.eqb_sym (zlen (kp_moves p))), (close2_sym S _ (kp_coords p)).
  rewrite (sym_combine Z.eqb (kp_basis q) Z.eqb_sym), (sym_combine String.eqb (kp_before p) String.eqb_sym), (sym_combine String.eqb (kp_after p) String.eqb_sym).
  rewrite (sym_combine (fun x y => (fst x =? fst y) && close2 S 10000000000000000 [snd x] [snd y]) (kp_moves p)); [reflexivity|]. intros x y. rewrite Z.eqb_sym, close2_sym. reflexivity.
Qed.
Theorem C53_same S p q : made S p -> made S q -> eqProcess S p q = true -> sameProcess S p q.
Proof.
  intros Mp Mq H. apply made_zlen in Mp, Mq. destruct Mp as [P1 P2], Mq as [Q1 Q2]. unfold eqProcess in H.
  destruct (Z.eqb_spec (zlen (kp_basis q)) (zlen (kp_basis p))) as [L1|]; cbn [negb] in H; [|discriminate]. destruct (forallb _ (combine (kp_basis q) _)) eqn:E1; cbn [negb] in H; [|discriminate]. apply (same_lists Z.eqb _ _ Z.eqb_eq L1) in E1.
  destruct (Z.eqb_spec (zlen (kp_coords q)) (zlen (kp_coords p))) as [L2|]; cbn [negb] in H; [|discriminate]. destruct (close2 _ _ (kp_coords p) _) eqn:E2; cbn [negb] in H; [|discriminate].
  destruct (forallb _ (combine (kp_before p) _)) eqn:E3; cbn [negb] in H; [|discriminate]. apply (same_lists String.eqb) in E3; [|apply String.eqb_eq|lia]. destruct (forallb _ (combine (kp_after p) _)) eqn:E4; cbn [negb] in H; [|discriminate]. apply (same_lists String.eqb) in E4; [|apply String.eqb_eq|lia].
  destruct (Z.eqb_spec (zlen (kp_moves p)) (zlen (kp_moves q))) as [L3|]; cbn [negb] in H; [|discriminate].
  pose proof (proj1 (forallb_combine (fun x y => (fst x =? fst y) && close2 S 10000000000000000 [snd x] [snd y]) _ _) H) as M. clear H.
  split; [congruence|]. split; [lia|]. split; [apply close2_each; [lia|exact E2]|]. split; [exact E3|]. split; [exact E4|]. split.
  - apply PBase.zget_ext. intros k. rewrite !zget_map. destruct (zget (kp_moves p) k) as [x|] eqn:X, (zget (kp_moves q) k) as [y|] eqn:Y; try reflexivity.
    + specialize (M k x y X Y). apply andb_true_iff in M. destruct M as [M _]. apply Z.eqb_eq in M. cbn [option_map]. congruence.
    + apply zget_range in X. apply zget_None in Y. lia.
    + apply zget_range in Y. apply zget_None in X. lia.
  - intros k x y X Y. rewrite zget_map in X. rewrite zget_map in Y. destruct (zget (kp_moves p) k) as [x'|] eqn:X'; [|discriminate]. destruct (zget (kp_moves q) k) as [y'|] eqn:Y'; [|discriminate]. injection X as <-. injection Y as <-. specialize (M k x' y' X' Y'). apply andb_true_iff in M. destruct M as [_ M].
    exact (close2_each S 10000000000000000 _ _ ltac:(lia) M 0 (snd x') (snd y') eq_refl eq_refl).
Qed.
(** Equality does not compare the rate constants: two processes that differ in nothing but their rates are equal. *)
Example C53_rate_ignored :
  exists p q, KMCProcess 10 (pyCoords [mkC 5 5 5; mkC 5 5 15]) (pyNames ["A"; "V"]) (pyNames ["V"; "A"]) VNone (pyBasis [0]) (VFloat (FNum 1)) = Ok p /\
              KMCProcess 10 (pyCoords [mkC 5 5 15; mkC 5 5 25]) (pyNames ["A"; "V"]) (pyNames ["V"; "A"]) VNone (pyBasis [0]) (VFloat (FNum 2)) = Ok q /\
              eqProcess 10 p q = true /\ kp_rate p <> kp_rate q /\
  exists q', KMCProcess 10 (pyCoords [mkC 5 5 5; mkC 5 5 16]) (pyNames ["A"; "V"]) (pyNames ["V"; "A"]) VNone (pyBasis [0]) (VFloat (FNum 1)) = Ok q' /\ eqProcess 10 p q' = false.
Proof. vm_compute. do 2 eexists. split; [reflexivity|]. split; [reflexivity|]. split; [reflexivity|]. split; [discriminate|]. eexists. split; reflexivity. Qed.

(** ** C54: unknown types *)
(** the names a process was given for matching: elements before and after, or the minimum match of a bucket process *)
Definition mentionedBy (S : Z) (p : kprocess) (s : string) : Prop :=
  match p with
  | KPlainP p => exists co be af mo ba ra b a, KMCProcess S co be af mo ba ra = Ok p /\ readsNames be b /\ readsNames af a /\ (In s b \/ In s a)
  | KBucketP p => exists co mm up ba ra l v given, KMCBucketProcess S co mm up ba ra = Ok p /\ asSeq mm = Some l /\ In v l /\ entryOf v = Some given /\ In s (map snd given)
  end.
Lemma strs_inj a b : map VStr a = map VStr b -> a = b.
Proof. intros X. pose proof (f_equal (flat_map (fun v => match v with VStr s => [s] | _ => [] end)) X) as Y. rewrite !flat_strs in Y. exact Y. Qed.
Lemma sorted_names S co be af mo cs b a mvs p : builtBy S co be af mo cs b a mvs p -> Permutation (kp_before p) b /\ Permutation (kp_after p) a.
Proof.
  intros B. pose proof (bb_lb _ _ _ _ _ _ _ _ _ _ B) as Lb. pose proof (bb_la _ _ _ _ _ _ _ _ _ _ B) as La. rewrite (bb_before _ _ _ _ _ _ _ _ _ _ B), (bb_after _ _ _ _ _ _ _ _ _ _ B).
  assert (E1 : map sr_before (sbase (centred cs) b a) = b). { apply PBase.zget_ext. intros k. rewrite zget_map, sbase_zget by (rewrite centred_zlen; assumption). destruct (zget b k) as [x|] eqn:X; [|destruct (zget (centred cs) k); reflexivity]. apply zget_range in X. destruct (zget_lt (centred cs) k) as [c ->]; [rewrite centred_zlen; lia|]. destruct (zget_lt a k) as [y ->]; [lia|]. reflexivity. }
  assert (E2 : map sr_after (sbase (centred cs) b a) = a). { apply PBase.zget_ext. intros k. rewrite zget_map, sbase_zget by (rewrite centred_zlen; assumption). destruct (zget a k) as [x|] eqn:X; [|destruct (zget (centred cs) k), (zget b k); reflexivity]. apply zget_range in X. destruct (zget_lt (centred cs) k) as [c ->]; [rewrite centred_zlen; lia|]. destruct (zget_lt b k) as [y ->]; [lia|]. reflexivity. }
  pose proof (rows_perm cs b a) as P. split; [rewrite <- E1 at 2|rewrite <- E2 at 2]; apply Permutation_map; exact P.
Qed.
Lemma mentioned_present S p s : mentionedBy S p s -> In (VStr s) (presentTypes p).
Proof.
  destruct p as [p|p]; cbn [mentionedBy presentTypes].
  - intros (co & be & af & mo & ba & ra & b & a & H & Rb & Ra & I). apply KMCProcess_inv in H. destruct H as (cs & b' & a' & mvs & B & _ & _). destruct (sorted_names _ _ _ _ _ _ _ _ _ _ B) as [P1 P2].
    pose proof (bb_b _ _ _ _ _ _ _ _ _ _ B) as X. unfold readsNames in X, Rb. rewrite Rb in X. injection X as X. apply strs_inj in X. subst b'. pose proof (bb_a _ _ _ _ _ _ _ _ _ _ B) as X. unfold readsNames in X, Ra. rewrite Ra in X. injection X as X. apply strs_inj in X. subst a'.
    apply in_map. apply in_or_app. destruct I as [I|I]; [left; apply (Permutation_in _ (Permutation_sym P1)); exact I|right; apply (Permutation_in _ (Permutation_sym P2)); exact I].
  - intros (co & mm & up & ba & ra & l & v & given & H & El & Hv & Eg & Hs). unfold KMCBucketProcess in H. destruct (checkCoordinateList co) as [cs|]; cbn [MPy.obind] in H; [|discriminate]. destruct (checkBasis ba) as [bs|]; cbn [MPy.obind] in H; [|discriminate]. destruct (checkRate ra) as [r|]; cbn [MPy.obind] in H; [|discriminate].
    rewrite El in H. destruct (oall (normaliseEntry S) l) as [ms|] eqn:E1; cbn [MPy.obind] in H; [|discriminate]. destruct (negb _); [discriminate|]. destruct (oall _ (concat ms)) as [ns|]; cbn [MPy.obind] in H; [|discriminate].
    destruct (oall (fun m => normaliseEntry S (VList (map VTuple m))) ms) as [ms'|] eqn:E2; cbn [MPy.obind] in H; [|discriminate]. injection H as <-. cbn [kb_match].
    destruct (oall_inv _ _ _ E1 v Hv) as (m & Em & Im). destruct (C40_normalises S v given Eg) as (r' & R1 & R2 & _ & _). rewrite Em in R1. injection R1 as <-. destruct (oall_inv _ _ _ E2 m Im) as (m' & Em' & Im'). rewrite (C40_idempotent S v given m Eg Em) in Em'. injection Em' as <-.
    cbn [entryOf] in R2. rewrite omap_itemOf in R2. assert (I2 : In s (map snd (totals given))) by (unfold totals; rewrite map_map; cbn [snd]; rewrite map_id; apply firsts_In; exact Hs). apply in_map_iff in I2. destruct I2 as ([k s'] & Es & I2). cbn [snd] in Es. subst s'.
    destruct (omap_In _ _ _ _ R2 I2) as (t & It & Et). apply itemT_inv in Et. destruct Et as (n & -> & _). apply in_flat_map. exists [n; VStr s]. split; [|left; reflexivity]. apply in_concat. exists m. auto.
Qed.
(** A process that was given a name which is not a possible type makes the construction fail with an Error. *)
Theorem C54_unknown_rejected S pt nbasis custom ps p s : In p ps -> mentionedBy S p s -> tfind pt s = None -> backendProcesses S pt nbasis custom ps = Raise KmcError.
Proof.
  intros Hp Hm Hs. unfold backendProcesses. destruct (forallb _ ps) eqn:E; [|reflexivity]. exfalso. rewrite forallb_forall in E. specialize (E p Hp). rewrite forallb_forall in E. specialize (E _ (mentioned_present S p s Hm)). cbn [known] in E. rewrite Hs in E. discriminate.
Qed.
(** If all names of plain processes are possible types then every process reaches the backend. *)
Lemma rowsOf_cols cs b a mvs : zlen b = zlen cs -> zlen a = zlen cs ->
  map rw_c (rowsOf cs b a mvs) = map (fun c => csub c (hd czero cs)) cs /\ map rw_before (rowsOf cs b a mvs) = b /\ map rw_after (rowsOf cs b a mvs) = a.
Proof.
  intros Lb La. assert (G : forall k, zget (rowsOf cs b a mvs) k = match zget cs k, zget b k, zget a k with Some c, Some x, Some y => Some (mkRow (csub c (hd czero cs)) x y (vectorFrom (zlen cs) mvs k)) | _, _, _ => None end).
  { intros k. unfold rowsOf. rewrite zget_map, !zget_combine, zget_zrange0. destruct (zget cs k) as [c|] eqn:E; [|destruct (zget b k), (zget a k); reflexivity]. apply zget_range in E. destruct (zget b k); [|reflexivity]. destruct (zget a k); [|reflexivity]. destruct (Z.leb_spec 0 k); [|lia]. destruct (Z.ltb_spec k (zlen cs)); [|lia]. reflexivity. }
  assert (R : forall k, (exists c x y, zget cs k = Some c /\ zget b k = Some x /\ zget a k = Some y) \/ (zget cs k = None /\ zget b k = None /\ zget a k = None)).
  { intros k. destruct (zget cs k) as [c|] eqn:E.
    - left. apply zget_range in E. destruct (zget_lt b k) as [x X]; [lia|]. destruct (zget_lt a k) as [y Y]; [lia|]. exists c, x, y. auto.
    - right. apply zget_None in E. split; [reflexivity|]. split; apply zget_None; lia. }
  split; [|split]; apply PBase.zget_ext; intros k; rewrite zget_map, G; destruct (R k) as [(c & x & y & X & Y & Z)|(X & Y & Z)]; try rewrite zget_map; rewrite ?X, ?Y, ?Z; reflexivity.
Qed.
Section Backend.
Context (S : Z) (HS : 0 < S <= 100000000) (pt : tmap) (WP : wfPT pt) (nbasis : Z).
Lemma plain_backend custom number p : made S p -> (forall s, In s (kp_before p) \/ In s (kp_after p) -> exists k, tfind pt s = Some k) ->
  exists proc f g, backendProcess S pt nbasis custom number (KPlainP p) = Ok (Some proc) /\
    mkConfiguration (map rw_c (kpRows p)) (map (fun r => [rw_before r]) (kpRows p)) pt = Some f /\ mkConfiguration (map rw_c (kpRows p)) (map (fun r => [rw_after r]) (kpRows p)) pt = Some g /\
    (mkProcess S f g (kp_rate p) (filter (fun b => b <? nbasis) (kp_basis p)) (map fst (kp_moves p)) (map snd (kp_moves p)) number = Some proc \/
     exists cut cache, mkCustomProcess S f g (kp_rate p) (filter (fun b => b <? nbasis) (kp_basis p)) cut (map fst (kp_moves p)) (map snd (kp_moves p)) number cache = Some proc).
Proof using HS WP.
  intros M HK. destruct (made_zlen S p M) as [L1 L2]. destruct M as (co & be & af & mo & ba & ra & HP). apply KMCProcess_inv in HP. destruct HP as (cs & b & a & mvs & B & _ & _).
  destruct (rowsOf_cols (kp_coords p) (kp_before p) (kp_after p) (kp_moves p) L1 L2) as (C1 & C2 & C3). fold (kpRows p) in C1, C2, C3.
  assert (HD : hd czero (kp_coords p) = czero) by (rewrite (kp_coords_rows _ _ _ _ _ _ _ _ _ _ B); apply (rows_head _ _ _ _ _ _ _ _ _ _ B)).
  assert (EC : map rw_c (kpRows p) = kp_coords p). { rewrite C1, HD. rewrite <- (map_id (kp_coords p)) at 2. apply map_ext. intros c. coords. }
  assert (EB : map (fun r => [rw_before r]) (kpRows p) = map (fun s => [s]) (kp_before p)) by (rewrite <- C2, map_map; reflexivity).
  assert (EA : map (fun r => [rw_after r]) (kpRows p) = map (fun s => [s]) (kp_after p)) by (rewrite <- C3, map_map; reflexivity).
  assert (LR : zlen (kpRows p) = zlen cs). { rewrite <- (zlen_map rw_c), EC, (kp_coords_rows _ _ _ _ _ _ _ _ _ _ B), zlen_map. apply (rows_zlen _ _ _ _ _ _ _ _ _ _ B). }
  destruct (mkConfiguration_total pt (kp_coords p) (map (fun s => [s]) (kp_before p)) WP) as [f EF]; [rewrite zlen_map; lia| |].
  { intros e He. apply in_map_iff in He. destruct He as (s & <- & Hs). split; [discriminate|]. intros s' [<-|[]]. apply HK. auto. }
  destruct (mkConfiguration_total pt (kp_coords p) (map (fun s => [s]) (kp_after p)) WP) as [g EG]; [rewrite zlen_map; lia| |].
  { intros e He. apply in_map_iff in He. destruct He as (s & <- & Hs). split; [discriminate|]. intros s' [<-|[]]. apply HK. auto. }
  assert (NE : kpRows p <> []). { intros X. rewrite X in LR. cbn in LR. symmetry in LR. apply zlen_0 in LR. exact (bb_ne _ _ _ _ _ _ _ _ _ _ B LR). }
  pose proof EF as EF'. pose proof EG as EG'. rewrite <- EC, <- EB in EF'. rewrite <- EC, <- EA in EG'.
  destruct (mkProcess_total S pt (kpRows p) (filter (fun b => b <? nbasis) (kp_basis p)) (kp_rate p) number (map fst (kp_moves p)) (map snd (kp_moves p)) f g WP NE EF' EG') as [q EQ]; [rewrite !zlen_map; reflexivity| |].
  { intros o Ho. apply in_map_iff in Ho. destruct Ho as (iv & <- & Hin). rewrite LR. exact (kp_moves_range _ _ _ _ _ _ _ _ _ _ B HS iv Hin). }
  cbn [backendProcess]. rewrite EF, EG. cbn [obind]. destruct custom as [[cut cache]|].
  - destruct (mkCustomProcess S f g (kp_rate p) (filter (fun b => b <? nbasis) (kp_basis p)) cut (map fst (kp_moves p)) (map snd (kp_moves p)) number cache) as [proc|] eqn:EM; [|unfold mkCustomProcess in EM; rewrite EQ in EM; discriminate].
    exists proc, f, g. split; [reflexivity|]. split; [exact EF'|]. split; [exact EG'|]. right. exists cut, cache. exact EM.
  - rewrite EQ. exists q, f, g. split; [reflexivity|]. split; [exact EF'|]. split; [exact EG'|]. left. exact EQ.
Qed.
Lemma made_mentions p s : made S p -> In s (kp_before p) \/ In s (kp_after p) -> mentionedBy S (KPlainP p) s.
Proof.
  intros (co & be & af & mo & ba & ra & HP) I. pose proof HP as HP'. apply KMCProcess_inv in HP. destruct HP as (cs & b & a & mvs & B & _ & _). destruct (sorted_names _ _ _ _ _ _ _ _ _ _ B) as [P1 P2].
  exists co, be, af, mo, ba, ra, b, a. split; [exact HP'|]. split; [apply B|]. split; [apply B|]. destruct I as [I|I]; [left; exact (Permutation_in _ P1 I)|right; exact (Permutation_in _ P2 I)].
Qed.
Lemma backend_list custom : forall l, (forall i p, In (i, p) l -> exists proc, backendProcess S pt nbasis (custom i) i p = Ok (Some proc)) ->
  exists procs, oall (fun ip => backendProcess S pt nbasis (custom (fst ip)) (fst ip) (snd ip)) l = Ok (map Some procs).
Proof.
  induction l as [|[i p] l IH]; intros H; [exists []; reflexivity|]. destruct (H i p (or_introl eq_refl)) as [proc E]. destruct IH as [procs EP]; [intros j q Hq; apply H; right; exact Hq|]. exists (proc :: procs). cbn [oall fst snd]. rewrite E. cbn [MPy.obind]. rewrite EP. reflexivity.
Qed.
(** For plain processes: an Error iff some process was given an unknown name; otherwise the backend gets all processes, and no lookup of a name fails there. *)
Theorem C54_plain_partial custom ps : (forall p, In p ps -> exists q, p = KPlainP q /\ made S q) ->
  (backendProcesses S pt nbasis custom ps = Raise KmcError <-> exists p s, In p ps /\ mentionedBy S p s /\ tfind pt s = None) /\
  ((forall p s, In p ps -> mentionedBy S p s -> tfind pt s <> None) -> exists procs, backendProcesses S pt nbasis custom ps = Ok (map Some procs)).
Proof using HS WP.
  intros HM.
  assert (OKS : (forall p s, In p ps -> mentionedBy S p s -> tfind pt s <> None) -> exists procs, backendProcesses S pt nbasis custom ps = Ok (map Some procs)).
  { intros HK. unfold backendProcesses. assert (E : forallb (fun p => forallb (known pt) (presentTypes p)) ps = true).
    { apply forallb_forall. intros p Hp. destruct (HM p Hp) as (q & -> & M). apply forallb_forall. intros v Hv. cbn [presentTypes] in Hv. apply in_map_iff in Hv. destruct Hv as (s & <- & Hs). cbn [known]. destruct (tfind pt s) eqn:T; [reflexivity|]. exfalso. apply (HK _ s Hp); [|exact T]. apply made_mentions; [exact M|]. apply in_app_or. exact Hs. }
    rewrite E. apply backend_list. intros i p Hin. apply in_combine_r in Hin. destruct (HM p Hin) as (q & -> & M). destruct (plain_backend (custom i) i q M) as (proc & f & g & X & _); [|exists proc; exact X].
    intros s Hs. destruct (tfind pt s) as [k|] eqn:T; [eauto|]. exfalso. apply (HK _ s Hin); [|exact T]. apply made_mentions; assumption. }
  split; [|exact OKS]. split.
  - intros H. unfold backendProcesses in H. destruct (forallb _ ps) eqn:E.
    + exfalso. destruct OKS as [procs X]; [|unfold backendProcesses in X; rewrite E in X; congruence]. intros p s Hp Hm T.
      rewrite forallb_forall in E. specialize (E p Hp). rewrite forallb_forall in E. specialize (E _ (mentioned_present S p s Hm)). cbn [known] in E. rewrite T in E. discriminate.
    + apply Bool.not_true_iff_false in E. assert (X : exists p, In p ps /\ forallb (known pt) (presentTypes p) = false).
      { clear -E. induction ps as [|p l IH]; [destruct E; reflexivity|]. cbn [forallb] in E. destruct (forallb (known pt) (presentTypes p)) eqn:F; [|exists p; split; [left; reflexivity|exact F]]. destruct IH as (q & Q1 & Q2); [exact E|]. exists q. split; [right; exact Q1|exact Q2]. }
      destruct X as (p & Hp & F). destruct (HM p Hp) as (q & -> & M). assert (Y : exists s, (In s (kp_before q) \/ In s (kp_after q)) /\ tfind pt s = None).
      { cbn [presentTypes] in F. clear -F. assert (G : forall l, forallb (known pt) (map VStr l) = false -> exists s, In s l /\ tfind pt s = None). { induction l as [|s l IH]; intros H; [discriminate|]. cbn [map forallb known] in H. destruct (tfind pt s) eqn:T; [|exists s; split; [left; reflexivity|exact T]]. destruct (IH H) as (s' & A1 & A2). exists s'. split; [right; exact A1|exact A2]. }
        destruct (G _ F) as (s & I & T). exists s. split; [apply in_app_or; exact I|exact T]. }
      destruct Y as (s & I & T). exists (KPlainP q), s. split; [exact Hp|]. split; [apply made_mentions; assumption|exact T].
  - intros (p & s & Hp & Hm & T). exact (C54_unknown_rejected S pt nbasis custom ps p s Hp Hm T).
Qed.
(** What reaches the backend are the rows of the user, in another order. *)
Theorem C44_backend custom number coordinates before after moves basis rate p : KMCProcess S coordinates before after moves basis rate = Ok p -> (forall s, mentionedBy S (KPlainP p) s -> exists k, tfind pt s = Some k) ->
  exists cs b a mvs, readsCoords coordinates cs /\ readsNames before b /\ readsNames after a /\ (moves = VNone \/ readsMoves moves mvs) /\
    (NoDup (map (fun iv => startOf (zlen cs) (fst iv)) mvs) -> exists rows proc, Permutation rows (rowsOf cs b a mvs) /\ backendProcess S pt nbasis custom number (KPlainP p) = Ok (Some proc) /\ builtPlain S pt rows (filter (fun b => b <? nbasis) (kp_basis p)) proc).
Proof using HS WP.
  intros HP HK. destruct (C44_rows S coordinates before after moves basis rate p HS HP) as (cs & b & a & mvs & R1 & R2 & R3 & R4 & R5). exists cs, b, a, mvs. split; [exact R1|]. split; [exact R2|]. split; [exact R3|]. split; [exact R4|]. intros ND. destruct (R5 ND) as [P MG].
  assert (M : made S p) by (do 6 eexists; exact HP). destruct (plain_backend custom number p M) as (proc & f & g & X & EF & EG & EP); [intros s Hs; apply HK, made_mentions; assumption|].
  exists (kpRows p), proc. split; [exact P|]. split; [exact X|]. exists f, g, (map fst (kp_moves p)), (map snd (kp_moves p)), (kp_rate p), number. auto.
Qed.
End Backend.

(** The update of a bucket process is not checked: an unknown name in it reaches the backend, where the lookup of the name runs past the end of the map. *)
Definition ptAB : tmap := [("*", 0); ("A", 1); ("B", 2)].
Theorem C54_update_refuted :
  exists b, KMCBucketProcess 10 (pyCoords [mkC 0 0 0]) (VList [VTuple [VInt 1; VStr "A"]]) (VList [VList [VTuple [VInt (-1); VStr "A"]; VTuple [VInt 1; VStr "X"]]]) (pyBasis [0]) (VFloat (FNum 1)) = Ok b /\
    tfind ptAB "X" = None /\ backendProcesses 10 ptAB 1 (fun _ => None) [KBucketP b] = Ok [None].
Proof. vm_compute. eexists. split; [reflexivity|]. split; reflexivity. Qed.
Example C54_case :
  exists p q, KMCProcess 10 (pyCoords [mkC 5 5 5; mkC 5 5 15]) (pyNames ["A"; "B"]) (pyNames ["B"; "A"]) VNone (pyBasis [0]) (VFloat (FNum 1)) = Ok p /\
            KMCProcess 10 (pyCoords [mkC 5 5 5; mkC 5 5 15]) (pyNames ["A"; "X"]) (pyNames ["X"; "A"]) VNone (pyBasis [0]) (VFloat (FNum 1)) = Ok q /\ wfPT ptAB /\
            backendProcesses 10 ptAB 1 (fun _ => None) [KPlainP p; KPlainP q] = Raise KmcError /\
            match backendProcesses 10 ptAB 1 (fun _ => None) [KPlainP p; KPlainP p] with Ok [Some _; Some _] => True | _ => False end.
Proof.
  assert (W : wfPT ptAB). { split; [|split; [cbn; apply Permutation_refl|reflexivity]]. cbn. repeat constructor; cbn; intuition discriminate. }
  do 2 eexists. split; [vm_compute; reflexivity|]. split; [vm_compute; reflexivity|]. split; [exact W|]. split; [vm_compute; reflexivity|]. vm_compute. exact I.
Qed.
Print Assumptions C44_explains_partial.
Print Assumptions C44_accepts.
Print Assumptions C44_rows.
Print Assumptions C44_backend.
Print Assumptions C44_distinct_refuted.
Print Assumptions C45_swap.
Print Assumptions C45_none.
Print Assumptions C53_reflexive.
Print Assumptions C53_symmetric.
Print Assumptions C53_same.
Print Assumptions C54_unknown_rejected.
Print Assumptions C54_plain_partial.
Print Assumptions C54_update_refuted.
