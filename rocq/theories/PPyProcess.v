(** Proofs about the process constructors. *)
From Coq Require Import Sorted.
From Verif Require Import PProcess PTypes PBuild.
From Verif Require Export SPyProcess.
Open Scope string_scope.
Open Scope list_scope.
Open Scope Z_scope.

Lemma coordOf_inv l c : coordOf l = Ok c -> l = [VFloat (FNum (cx c)); VFloat (FNum (cy c)); VFloat (FNum (cz c))].
Proof.
  unfold coordOf. destruct l as [|x [|y [|z [|w l]]]]; try discriminate.
  destruct x as [| | |[x| | |]| | | |]; try discriminate. destruct y as [| | |[y| | |]| | | |]; try discriminate. destruct z as [| | |[z| | |]| | | |]; try discriminate.
  cbn [asNum MPy.obind]. intros H. injection H as <-. reflexivity.
Qed.
Lemma readsVector_ok v c : readsVector v c <-> (try s <- seqOf v ;; coordOf s) = Ok c.
Proof.
  unfold readsVector, seqOf. destruct (asSeq v) as [l|]; cbn [MPy.obind]; [|split; discriminate]. split; [|intros H; f_equal; apply coordOf_inv; exact H].
  intros H. injection H as ->. cbn [coordOf asNum MPy.obind]. destruct c; reflexivity.
Qed.
Lemma oall_Forall2 {A B} (f : A -> outcome B) l : forall r, oall f l = Ok r <-> Forall2 (fun a b => f a = Ok b) l r.
Proof.
  induction l as [|a l IH]; intros r; cbn [oall]; split; intros H.
  - injection H as <-. constructor.
  - inversion H. reflexivity.
  - destruct (f a) as [b|] eqn:E; cbn [MPy.obind] in H; [|discriminate]. destruct (oall f l) as [bs|] eqn:E2; cbn [MPy.obind] in H; [|discriminate]. injection H as <-. constructor; [exact E|]. apply IH. reflexivity.
  - inversion H as [|? b ? bs E F]; subst. rewrite E. apply IH in F. rewrite F. reflexivity.
Qed.
Lemma Forall2_imp {A B} (P Q : A -> B -> Prop) l r : (forall a b, P a b -> Q a b) -> Forall2 P l r -> Forall2 Q l r.
Proof. intros H. induction 1; constructor; auto. Qed.
Lemma Forall2_zlen {A B} (P : A -> B -> Prop) l r : Forall2 P l r -> zlen l = zlen r.
Proof. induction 1; [reflexivity|]. rewrite !zlen_cons. lia. Qed.
Lemma readsCoords_ok v cs : cs <> [] -> (readsCoords v cs <-> checkCoordinateList v = Ok cs).
Proof.
  intros N. unfold readsCoords, checkCoordinateList, seqOf at 1. destruct (asSeq v) as [l|]; cbn [MPy.obind]; [|split; [intros (l & ? & _)|]; discriminate]. split.
  - intros (l' & E & F). injection E as <-. pose proof (Forall2_zlen _ _ _ F) as Z1. destruct cs as [|c cs]; [congruence|]. rewrite zlen_cons in Z1. pose proof (zlen_nonneg cs). destruct (Z.ltb_spec (zlen l) 1); [lia|].
    apply oall_Forall2. revert F. apply Forall2_imp. intros x y. apply readsVector_ok.
  - destruct (zlen l <? 1); [discriminate|]. intros H. exists l. split; [reflexivity|]. apply oall_Forall2 in H. revert H. apply Forall2_imp. intros x y. apply readsVector_ok.
Qed.
Lemma checkCoordinateList_ne v cs : checkCoordinateList v = Ok cs -> cs <> [].
Proof.
  unfold checkCoordinateList. destruct (seqOf v) as [l|]; cbn [MPy.obind]; [|discriminate]. destruct (Z.ltb_spec (zlen l) 1); [discriminate|]. intros H1 ->. apply oall_Forall2 in H1. inversion H1; subst. cbn in H. lia.
Qed.
Lemma moveOf_ok v iv : readsMove v iv <-> moveOf v = Ok iv.
Proof.
  unfold readsMove. split.
  - intros (w & rest & -> & R). cbn [moveOf fst_ snd_ MPy.obind]. apply readsVector_ok in R. destruct (seqOf w) as [s|]; cbn [MPy.obind] in *; [|discriminate]. rewrite R. destruct iv; reflexivity.
  - destruct v as [| | | | | |t|]; try discriminate. destruct t as [|x t]; [discriminate|]. cbn [moveOf fst_ MPy.obind]. destruct x as [| |i| | | | |]; try discriminate. destruct t as [|w rest]; [discriminate|]. cbn [snd_ MPy.obind].
    destruct (seqOf w) as [s|] eqn:E; cbn [MPy.obind]; [|discriminate]. destruct (coordOf s) as [c|] eqn:E2; cbn [MPy.obind]; [|discriminate]. intros H. injection H as <-. exists w, rest. split; [reflexivity|]. apply readsVector_ok. rewrite E. exact E2.
Qed.
Lemma readsMoves_ok v mvs : readsMoves v mvs <-> (try l <- seqOf v ;; oall moveOf l) = Ok mvs.
Proof.
  unfold readsMoves, seqOf. destruct (asSeq v) as [l|]; cbn [MPy.obind]; [|split; [intros (l & ? & _)|]; discriminate]. split.
  - intros (l' & E & F). injection E as <-. apply oall_Forall2. revert F. apply Forall2_imp. intros x y. apply moveOf_ok.
  - intros H. exists l. split; [reflexivity|]. apply oall_Forall2 in H. revert H. apply Forall2_imp. intros x y. apply moveOf_ok.
Qed.

Lemma csub_self c : csub c c = czero. Proof. unfold csub, czero. f_equal; lia. Qed.
Lemma coord_eq a b : cx a = cx b -> cy a = cy b -> cz a = cz b -> a = b.
Proof. destruct a, b; cbn; congruence. Qed.
Ltac coords := apply coord_eq; unfold csub, cadd, czero in *; cbn [cx cy cz] in *; lia.
Lemma cnorm2_zero c : cnorm2 c = 0 -> c = czero.
Proof. unfold cnorm2. intros H. apply coord_eq; cbn [cx cy cz czero]; nia. Qed.
Lemma hits_eq S new c : 0 < S <= 100000000 -> hits S new c = true <-> c = new.
Proof.
  intros HS. unfold hits, l1. rewrite Z.ltb_lt. split.
  - intros H. unfold csub in H; cbn [cx cy cz] in H. apply coord_eq; lia.
  - intros ->. rewrite csub_self. cbn. lia.
Qed.
Lemma findFrom_spec f cs : forall k r, findFrom f cs k = Some r -> exists c, zget cs (r - k) = Some c /\ f c = true /\ k <= r /\ forall j c', 0 <= j < r - k -> zget cs j = Some c' -> f c' = false.
Proof.
  induction cs as [|c cs IH]; intros k r H; cbn [findFrom] in H; [discriminate|]. destruct (f c) eqn:E.
  - injection H as <-. rewrite Z.sub_diag. exists c. repeat split; auto; try lia.
  - apply IH in H. destruct H as (c1 & G & F & L & M). exists c1. rewrite zget_cons. destruct (Z.eqb_spec (r - k) 0); [lia|]. replace (r - k - 1) with (r - (k + 1)) by lia. repeat split; auto; try lia.
    intros j c' Hj. rewrite zget_cons. destruct (Z.eqb_spec j 0); [intros X; injection X as <-; exact E|]. apply M. lia.
Qed.
Lemma findFrom_none f cs : forall k, findFrom f cs k = None -> forall c, In c cs -> f c = false.
Proof.
  induction cs as [|c cs IH]; intros k H x Hx; [destruct Hx|]. cbn [findFrom] in H. destruct (f c) eqn:E; [discriminate|]. destruct Hx as [<-|Hx]; [exact E|]. apply (IH (k + 1)); assumption.
Qed.
Lemma pyIndex_ok n i k : 0 <= n -> pyIndex n i = Ok k <-> (k = startOf n i /\ 0 <= k < n).
Proof.
  intros Hn. unfold pyIndex, startOf. destruct (Z.leb_spec 0 i), (Z.ltb_spec i n), (Z.leb_spec (- n) i), (Z.ltb_spec i 0); cbn [andb]; try lia; split; intros H'; try discriminate; try (injection H' as <-; lia); try (f_equal; lia); lia.
Qed.
Lemma pyGet_ok {A} (l : list A) i a : pyGet l i = Ok a <-> zget l (startOf (zlen l) i) = Some a.
Proof.
  unfold pyGet. pose proof (zlen_nonneg l). split.
  - destruct (pyIndex (zlen l) i) as [k|] eqn:E; cbn [MPy.obind]; [|discriminate]. apply pyIndex_ok in E; [|lia]. destruct E as [-> R]. destruct (zget l _); [|discriminate]. congruence.
  - intros H'. pose proof (zget_range _ _ _ H') as R. assert (E : pyIndex (zlen l) i = Ok (startOf (zlen l) i)) by (apply pyIndex_ok; [lia|auto]). rewrite E. cbn [MPy.obind]. rewrite H'. reflexivity.
Qed.
Lemma startOf_nonneg n i : 0 <= i -> startOf n i = i. Proof. unfold startOf. destruct (Z.ltb_spec i 0); lia. Qed.

Lemma leads_fun cs iv k j k' j' : leads cs iv k j -> leads cs iv k' j' -> k = k' /\ j = j'.
Proof.
  intros (-> & a & A1 & A2 & A3) (-> & a' & B1 & B2 & B3). split; [reflexivity|]. rewrite A1 in B1. injection B1 as <-.
  pose proof (zget_range _ _ _ A2). pose proof (zget_range _ _ _ B2). destruct (Z.lt_trichotomy j j') as [L|[L|L]]; [|exact L|]; exfalso; [apply (B3 j)|apply (A3 j')]; auto; lia.
Qed.

(** ** the loop over the vectors *)
Section Apply.
Context (S : Z) (HS : 0 < S <= 100000000) (cs : list coord) (before after : list string) (HB : zlen before = zlen cs) (HA : zlen after = zlen cs).
Lemma leads_find iv old j : zget cs (startOf (zlen cs) (fst iv)) = Some old -> findFrom (hits S (cadd old (snd iv))) cs 0 = Some j <-> leads cs iv (startOf (zlen cs) (fst iv)) j.
Proof using HS.
  intros E. split.
  - intros H. apply findFrom_spec in H. destruct H as (c & G & F & L & M). rewrite Z.sub_0_r in *. apply hits_eq in F; [|exact HS]. subst c. split; [reflexivity|]. exists old. split; [exact E|]. split; [exact G|]. intros j' Hj G'.
    specialize (M j' _ Hj G'). assert (T : hits S (cadd old (snd iv)) (cadd old (snd iv)) = true) by (apply hits_eq; auto). congruence.
  - intros (_ & a & A1 & A2 & A3). rewrite E in A1. injection A1 as <-. assert (T : hits S (cadd old (snd iv)) (cadd old (snd iv)) = true) by (apply hits_eq; auto).
    destruct (findFrom _ cs 0) as [r|] eqn:F.
    + apply findFrom_spec in F. destruct F as (c & G & F & L & M). rewrite Z.sub_0_r in *. apply hits_eq in F; [|exact HS]. subst c. f_equal. pose proof (zget_range _ _ _ A2). pose proof (zget_range _ _ _ G).
      destruct (Z.lt_trichotomy r j) as [X|[X|X]]; [|exact X|]; exfalso; [apply (A3 r); auto; lia|]. rewrite (M j _ ltac:(lia) A2) in T. discriminate.
    + pose proof (findFrom_none _ _ _ F _ (zget_In _ _ _ A2)). congruence.
Qed.
Lemma applyMoves_inv mvs : forall moved moved', zlen moved = zlen cs -> applyMoves S cs before after moved mvs = Ok moved' ->
  (forall iv, In iv mvs -> exists k j s, leads cs iv k j /\ zget before k = Some s /\ zget after j = Some s) /\
  (forall j, (exists iv k, In iv mvs /\ leads cs iv k j /\ zget moved' j = zget before k) \/ ((forall iv k, In iv mvs -> ~ leads cs iv k j) /\ zget moved' j = zget moved j)) /\ zlen moved' = zlen cs.
Proof using HS HB HA.
  induction mvs as [|[i v] mvs IH]; intros moved moved' HM H; cbn [applyMoves] in H.
  - injection H as <-. split; [intros iv []|]. split; [|exact HM]. intros j. right. split; [intros iv k []|reflexivity].
  - destruct (pyGet cs i) as [old|] eqn:E; cbn [MPy.obind] in H; [|discriminate]. apply pyGet_ok in E. destruct (findFrom _ cs 0) as [j|] eqn:F; [|discriminate].
    apply (leads_find (i, v) old j E) in F. cbn [fst snd] in F. destruct (pyGet before i) as [b|] eqn:G; cbn [MPy.obind] in H; [|discriminate]. apply pyGet_ok in G. rewrite HB in G.
    destruct (pyGet after j) as [a|] eqn:G2; cbn [MPy.obind] in H; [|discriminate]. apply pyGet_ok in G2.
    assert (Hj : 0 <= j < zlen cs) by (destruct F as (_ & x & _ & X & _); exact (zget_range _ _ _ X)). rewrite startOf_nonneg in G2 by lia.
    destruct (String.eqb_spec b a) as [->|]; [|discriminate]. destruct (zset moved j a) as [m1|] eqn:Z1; [|discriminate]. pose proof (zset_len _ _ _ _ Z1) as L1.
    destruct (IH m1 moved' ltac:(lia) H) as (I1 & I2 & I3). split; [|split; [|exact I3]].
    + intros iv [<-|Hin]; [|apply I1; exact Hin]. exists (startOf (zlen cs) i), j, a. auto.
    + intros j'. destruct (I2 j') as [(iv & k & N & L & X)|(N & X)].
      * left. exists iv, k. split; [right; exact N|auto].
      * destruct (Z.eq_dec j' j) as [->|ne].
        -- left. exists (i, v), (startOf (zlen cs) i). split; [left; reflexivity|]. split; [exact F|]. rewrite X, G. rewrite (zset_get _ _ _ _ j Z1). rewrite Z.eqb_refl. reflexivity.
        -- right. split; [|rewrite X, (zset_get _ _ _ _ j' Z1); destruct (Z.eqb_spec j' j); [contradiction|reflexivity]]. intros iv k [<-|Hin] L; [|exact (N iv k Hin L)]. destruct (leads_fun _ _ _ _ _ _ F L) as [_ Y]. congruence.
Qed.
Lemma applyMoves_total mvs : forall moved, zlen moved = zlen cs -> (forall iv, In iv mvs -> exists k j s, leads cs iv k j /\ zget before k = Some s /\ zget after j = Some s) ->
  exists moved', applyMoves S cs before after moved mvs = Ok moved'.
Proof using HS HB HA.
  induction mvs as [|[i v] mvs IH]; intros moved HM H; cbn [applyMoves]; [exists moved; reflexivity|].
  destruct (H (i, v) (or_introl eq_refl)) as (k & j & s & L & B & A). destruct (L) as (-> & old & X1 & X2 & _). cbn [fst snd] in *.
  rewrite (proj2 (pyGet_ok cs i old)) by exact X1. cbn [MPy.obind]. rewrite (proj2 (leads_find (i, v) old j X1) L : findFrom (hits S (cadd old v)) cs 0 = Some j).
  rewrite (proj2 (pyGet_ok before i s)) by (rewrite HB; exact B). cbn [MPy.obind]. pose proof (zget_range _ _ _ X2) as Hj. rewrite (proj2 (pyGet_ok after j s)) by (rewrite startOf_nonneg by lia; exact A). cbn [MPy.obind].
  rewrite String.eqb_refl. destruct (zset_lt moved j s) as [m1 Z1]; [lia|]. rewrite Z1. apply IH; [rewrite (zset_len _ _ _ _ Z1); exact HM|]. intros iv Hin. apply H. right. exact Hin.
Qed.
End Apply.

(** ** helpers *)
Lemma listEq_spec {A} (eqb : A -> A -> bool) : (forall x y, eqb x y = true <-> x = y) -> forall l m, listEq eqb l m = true <-> l = m.
Proof.
  intros H. induction l as [|x l IH]; intros [|y m]; cbn [listEq]; split; intros E; try discriminate; try reflexivity.
  - apply andb_true_iff in E. destruct E as [E1 E2]. apply H in E1. apply IH in E2. congruence.
  - injection E as -> ->. apply andb_true_iff. split; [apply H; reflexivity|apply IH; reflexivity].
Qed.
Lemma listEq_str l m : listEq String.eqb l m = true <-> l = m. Proof. apply listEq_spec. apply String.eqb_eq. Qed.
Lemma zget_combine {A B} (a : list A) : forall (b : list B) i, zget (combine a b) i = match zget a i, zget b i with Some x, Some y => Some (x, y) | _, _ => None end.
Proof.
  induction a as [|x a IH]; intros b i; cbn [combine]; [rewrite !zget_nil; reflexivity|]. destruct b as [|y b]; [rewrite !zget_nil; destruct (zget _ i); reflexivity|]. rewrite !zget_cons. destruct (i =? 0); [reflexivity|]. apply IH.
Qed.
Lemma zget_zrange0 n i : zget (zrange 0 (n - 1)) i = if (0 <=? i) && (i <? n) then Some i else None.
Proof.
  destruct (Z.leb_spec 0 i), (Z.ltb_spec i n); cbn [andb]; [rewrite zget_zrange by lia; reflexivity| | |]; apply zget_None; rewrite zlen_zrange; lia.
Qed.
Lemma zlen_combine {A B} (a : list A) : forall b : list B, zlen a = zlen b -> zlen (combine a b) = zlen a.
Proof. unfold zlen. intros b H. rewrite combine_length. lia. Qed.
Lemma centred_zget cs k : zget (centred cs) k = option_map (fun c => csub c (hd czero cs)) (zget cs k).
Proof. destruct cs as [|c0 cs]; [cbn [centred]; rewrite zget_nil; reflexivity|]. cbn [hd]. unfold centred. apply zget_map. Qed.
Lemma centred_zlen cs : zlen (centred cs) = zlen cs.
Proof. destruct cs; [reflexivity|]. unfold centred. apply zlen_map. Qed.
Lemma csub_add a b v : cadd (csub a b) v = csub (cadd a v) b. Proof. coords. Qed.
Lemma csub_inj a b c : csub a c = csub b c -> a = b.
Proof. intros H. apply coord_eq; [apply (f_equal cx) in H|apply (f_equal cy) in H|apply (f_equal cz) in H]; unfold csub in H; cbn [cx cy cz] in H; lia. Qed.
Lemma leads_centred cs iv k j : leads (centred cs) iv k j <-> leads cs iv k j.
Proof.
  unfold leads. rewrite centred_zlen. split; intros (-> & a & A & B & C); (split; [reflexivity|]).
  - rewrite centred_zget in A, B. destruct (zget cs (startOf (zlen cs) (fst iv))) as [c|] eqn:E; [|discriminate]. cbn [option_map] in A. injection A as <-. exists c. split; [reflexivity|]. rewrite csub_add in *.
    destruct (zget cs j) as [d|] eqn:E2; [|discriminate]. cbn [option_map] in B. assert (X : csub d (hd czero cs) = csub (cadd c (snd iv)) (hd czero cs)) by congruence. apply csub_inj in X. subst d. split; [reflexivity|].
    intros j' Hj G. apply (C j' Hj). rewrite centred_zget, G. reflexivity.
  - exists (csub a (hd czero cs)). rewrite !centred_zget, A, B, csub_add. split; [reflexivity|]. split; [reflexivity|]. intros j' Hj G. apply (C j' Hj). rewrite centred_zget in G. destruct (zget cs j') as [d|]; [|discriminate]. cbn [option_map] in G. 
    f_equal. apply (csub_inj _ _ (hd czero cs)). congruence.
Qed.

(** ** the default vectors *)
Definition thirdLt (x y : string * string * Z) : Prop := snd x < snd y.
Lemma combine_sorted (l : list (string * string)) : forall lo n, StronglySorted thirdLt (combine l (zseq lo n)).
Proof.
  induction l as [|x l IH]; intros lo n; cbn [combine]; [constructor|]. destruct n as [|n]; cbn [zseq]; [constructor|]. constructor; [apply IH|]. apply Forall_forall. intros [y k] H. apply in_combine_r in H. apply In_zseq in H. unfold thirdLt. cbn [snd]. lia.
Qed.
Lemma filter_sorted {A} (R : A -> A -> Prop) f l : StronglySorted R l -> StronglySorted R (filter f l).
Proof.
  induction 1 as [|a l H IH F]; cbn [filter]; [constructor|]. destruct (f a); [|exact IH]. constructor; [exact IH|]. apply Forall_forall. intros x Hx. apply filter_In in Hx. rewrite Forall_forall in F. apply F, Hx.
Qed.
Lemma differing_sorted b a : StronglySorted thirdLt (differing b a).
Proof. unfold differing, zrange. apply filter_sorted, combine_sorted. Qed.
Lemma differing_In b a x y k : zlen b = zlen a -> In (x, y, k) (differing b a) <-> zget b k = Some x /\ zget a k = Some y /\ x <> y.
Proof.
  intros E. unfold differing. rewrite filter_In. split.
  - intros [H N]. apply In_zget in H. destruct H as [i H]. rewrite !zget_combine, zget_zrange0 in H. destruct (zget b i) as [x'|] eqn:B; [|discriminate]. destruct (zget a i) as [y'|] eqn:A; [|discriminate].
    pose proof (zget_range _ _ _ B). destruct (Z.leb_spec 0 i); [|lia]. destruct (Z.ltb_spec i (zlen b)); [|lia]. cbn [andb] in H. injection H as -> -> ->. destruct (String.eqb_spec x y); [discriminate|]. auto.
  - intros (B & A & N). split; [|destruct (String.eqb_spec x y); [contradiction|reflexivity]]. apply (zget_In _ k). rewrite !zget_combine, B, A, zget_zrange0. pose proof (zget_range _ _ _ B). destruct (Z.leb_spec 0 k); [|lia]. destruct (Z.ltb_spec k (zlen b)); [|lia]. reflexivity.
Qed.
Lemma StronglySorted_unique {A} (R : A -> A -> Prop) : (forall x, ~ R x x) -> (forall x y, R x y -> R y x -> False) -> forall l m, StronglySorted R l -> StronglySorted R m -> (forall x, In x l <-> In x m) -> l = m.
Proof.
  intros Irr As. induction l as [|a l IH]; intros m Sl Sm H.
  - destruct m as [|b m]; [reflexivity|]. destruct (proj2 (H b) (or_introl eq_refl)).
  - destruct m as [|b m]; [destruct (proj1 (H a) (or_introl eq_refl))|]. inversion Sl as [|? ? S1 F1]; subst. inversion Sm as [|? ? S2 F2]; subst. rewrite Forall_forall in F1, F2.
    assert (E : a = b). { destruct (proj1 (H a) (or_introl eq_refl)) as [X|X]; [auto|]. destruct (proj2 (H b) (or_introl eq_refl)) as [Y|Y]; [auto|]. exfalso. exact (As _ _ (F1 _ Y) (F2 _ X)). }
    subst b. f_equal. apply IH; auto. intros x. split; intros Hx.
    + destruct (proj1 (H x) (or_intror Hx)) as [X|X]; [|exact X]. subst x. destruct (Irr _ (F1 _ Hx)).
    + destruct (proj2 (H x) (or_intror Hx)) as [X|X]; [|exact X]. subst x. destruct (Irr _ (F2 _ Hx)).
Qed.
Lemma swaps_differing b a i j : zlen b = zlen a -> swaps b a i j -> exists x y, zget b i = Some x /\ zget b j = Some y /\ x <> y /\ differing b a = [(x, y, i); (y, x, j)].
Proof.
  intros E (L & N & H1 & H2 & R1 & R2 & O). destruct (zget_lt b i) as [x X]; [lia|]. destruct (zget_lt b j) as [y Y]; [lia|]. exists x, y. split; [exact X|]. split; [exact Y|]. assert (NE : x <> y) by congruence. split; [exact NE|].
  apply (StronglySorted_unique thirdLt); [unfold thirdLt; lia|unfold thirdLt; lia|apply differing_sorted| |].
  - repeat constructor. unfold thirdLt. cbn [snd]. exact L.
  - intros [[p q] k]. rewrite differing_In by exact E. cbn [In]. split.
    + intros (B & A & D). destruct (Z.eq_dec k i) as [->|]; [left; congruence|]. destruct (Z.eq_dec k j) as [->|]; [right; left; congruence|]. rewrite (O k) in B by assumption. congruence.
    + intros [X1|[X1|[]]]; injection X1 as <- <- <-; (split; [congruence|]); split; congruence.
Qed.
Lemma differing_swaps b a x y x' y' i j : zlen b = zlen a -> differing b a = [(x, y, i); (x', y', j)] -> x = y' -> y = x' -> swaps b a i j.
Proof.
  intros E D -> ->. pose proof (differing_sorted b a) as SS. rewrite D in SS. inversion SS as [|? ? _ F]; subst. rewrite Forall_forall in F. specialize (F _ (or_introl eq_refl)). unfold thirdLt in F. cbn [snd] in F.
  assert (I : In (y', x', i) (differing b a)) by (rewrite D; left; reflexivity). assert (J : In (x', y', j) (differing b a)) by (rewrite D; right; left; reflexivity).
  apply differing_In in I; [|exact E]. apply differing_In in J; [|exact E]. destruct I as (I1 & I2 & I3), J as (J1 & J2 & J3). pose proof (zget_range _ _ _ I1). pose proof (zget_range _ _ _ J1).
  split; [lia|]. split; [congruence|]. split; [congruence|]. split; [congruence|]. split; [lia|]. split; [lia|]. intros k Ki Kj.
  destruct (zget b k) as [p|] eqn:B; destruct (zget a k) as [q|] eqn:A.
  - destruct (string_dec p q) as [->|ne]; [reflexivity|]. exfalso. assert (K : In (p, q, k) (differing b a)) by (apply differing_In; auto). rewrite D in K. destruct K as [K|[K|[]]]; congruence.
  - apply zget_range in B. apply zget_None in A. lia.
  - apply zget_range in A. apply zget_None in B. lia.
  - reflexivity.
Qed.
Lemma reconstruct_cases cs b a : zlen b = zlen cs -> zlen a = zlen cs ->
  (exists i j ci cj, swaps b a i j /\ zget cs i = Some ci /\ zget cs j = Some cj /\ reconstruct cs b a = Ok (Some [(i, csub cj ci); (j, csub ci cj)])) \/
  ((forall i j, ~ swaps b a i j) /\ reconstruct cs b a = Ok None).
Proof.
  intros Eb Ea. unfold reconstruct.
  destruct (differing b a) as [|[[x y] i] [|[[x' y'] j] [|d l]]] eqn:D; try (right; split; [|reflexivity]; intros i0 j0 W; apply swaps_differing in W; [|lia]; destruct W as (? & ? & _ & _ & _ & W); congruence).
  destruct (String.eqb_spec x y') as [e1|ne]; [destruct (String.eqb_spec y x') as [e2|ne]|]; cbn [andb].
  - left. assert (W : swaps b a i j) by (apply (differing_swaps b a x y x' y' i j); auto; lia). pose proof W as (L & _ & _ & _ & R1 & R2 & _). destruct (zget_lt cs i) as [ci I]; [lia|]. destruct (zget_lt cs j) as [cj J]; [lia|].
    exists i, j, ci, cj. split; [exact W|]. split; [exact I|]. split; [exact J|]. rewrite (proj2 (pyGet_ok cs i ci)) by (rewrite startOf_nonneg by lia; exact I). rewrite (proj2 (pyGet_ok cs j cj)) by (rewrite startOf_nonneg by lia; exact J). reflexivity.
  - right. split; [|reflexivity]. intros i0 j0 W. apply swaps_differing in W; [|lia]. destruct W as (? & ? & _ & _ & _ & W). congruence.
  - right. split; [|reflexivity]. intros i0 j0 W. apply swaps_differing in W; [|lia]. destruct W as (? & ? & _ & _ & _ & W). congruence.
Qed.

(** ** vectors by starting position *)
Definition starts (n : Z) (mvs : list (Z * coord)) : list Z := map (fun iv => startOf n (fst iv)) mvs.
Lemma vectorFrom_spec n mvs k v : NoDup (starts n mvs) -> vectorFrom n mvs k = Some v <-> exists i, In (i, v) mvs /\ startOf n i = k.
Proof.
  unfold vectorFrom. induction mvs as [|[i w] mvs IH]; intros ND; cbn [find option_map]; [split; [discriminate|intros (i & [] & _)]|]. cbn [starts map fst] in ND. inversion ND as [|? ? N1 N2]; subst. cbn [fst]. destruct (Z.eqb_spec (startOf n i) k) as [E|E].
  - cbn [option_map snd]. split; [intros X; injection X as <-; exists i; split; [left; reflexivity|exact E]|]. intros (i' & [X|X] & E'); [congruence|]. exfalso. apply N1. rewrite E, <- E'. apply (in_map (fun iv => startOf n (fst iv)) _ _ X).
  - rewrite IH by exact N2. split; intros (i' & X & E'); exists i'; (split; [|exact E']); [right; exact X|]. destruct X as [X|X]; [congruence|exact X].
Qed.
Lemma zfind_inj l x y : In x l -> In y l -> zfind l x = zfind l y -> x = y.
Proof. intros Hx Hy E. destruct (zfind_spec l x Hx) as [X _], (zfind_spec l y Hy) as [Y _]. congruence. Qed.
Lemma resort_zfind l k x : NoDup l -> zget l k = Some x -> zfind l x = k.
Proof. intros ND H. destruct (zfind_spec l x (zget_In _ _ _ H)) as [X _]. exact (zget_NoDup_inj _ _ _ _ ND X H). Qed.

(** ** sorting *)
Definition sbase (cs : list coord) (b a : list string) : list srow :=
  map (fun x => let '(c, b, a, i) := x in mkSR c (cnorm2 (csub c (hd czero cs))) b a i) (combine (combine (combine cs b) a) (zrange 0 (zlen cs - 1))).
Lemma sbase_zget cs b a k : zlen b = zlen cs -> zlen a = zlen cs ->
  zget (sbase cs b a) k = match zget cs k, zget b k, zget a k with Some c, Some s, Some t => Some (mkSR c (cnorm2 (csub c (hd czero cs))) s t k) | _, _, _ => None end.
Proof.
  intros Hb Ha. unfold sbase. rewrite zget_map, !zget_combine, zget_zrange0. destruct (zget cs k) as [c|] eqn:E; [|destruct (zget b k), (zget a k); reflexivity]. destruct (zget b k); [|reflexivity]. destruct (zget a k); [|reflexivity].
  pose proof (zget_range _ _ _ E). destruct (Z.leb_spec 0 k); [|lia]. destruct (Z.ltb_spec k (zlen cs)); [|lia]. reflexivity.
Qed.
Lemma sbase_zlen cs b a : zlen b = zlen cs -> zlen a = zlen cs -> zlen (sbase cs b a) = zlen cs.
Proof. intros Hb Ha. unfold sbase. pose proof (zlen_nonneg cs). assert (E1 : zlen (combine cs b) = zlen cs) by (apply zlen_combine; lia). assert (E2 : zlen (combine (combine cs b) a) = zlen cs) by (rewrite zlen_combine; lia). rewrite zlen_map, zlen_combine; [exact E2|]. rewrite zlen_zrange. lia. Qed.
Lemma sbase_old cs b a : zlen b = zlen cs -> zlen a = zlen cs -> map sr_old (sbase cs b a) = zrange 0 (zlen cs - 1).
Proof.
  intros Hb Ha. apply PBase.zget_ext. intros k. rewrite zget_map, sbase_zget, zget_zrange0 by assumption. destruct (zget cs k) as [c|] eqn:E.
  - pose proof (zget_range _ _ _ E). destruct (zget_lt b k) as [s ->]; [lia|]. destruct (zget_lt a k) as [t ->]; [lia|]. destruct (Z.leb_spec 0 k); [|lia]. destruct (Z.ltb_spec k (zlen cs)); [|lia]. reflexivity.
  - apply zget_None in E. destruct (Z.leb_spec 0 k), (Z.ltb_spec k (zlen cs)); try reflexivity. lia.
Qed.
Lemma sinsert_head (a : srow) l : exists h t, sinsert srLt a l = h :: t /\ (h = a \/ exists l', l = h :: l') /\ sr_d2 h <= sr_d2 a /\ (forall b l', l = b :: l' -> sr_d2 h <= sr_d2 b).
Proof.
  destruct l as [|b l]; cbn [sinsert]; [exists a, []; repeat split; auto; [lia|discriminate]|]. destruct (srLt b a) eqn:E.
  - exists b, (sinsert srLt a l). split; [reflexivity|]. split; [right; eauto|]. split; [|intros ? ? X; injection X as <- <-; lia]. unfold srLt in E. destruct (Z.ltb_spec (sr_d2 b) (sr_d2 a)); [lia|]. destruct (Z.ltb_spec (sr_d2 a) (sr_d2 b)); [discriminate|lia].
  - exists a, (b :: l). split; [reflexivity|]. split; [auto|]. split; [lia|]. intros ? ? X. injection X as <- <-. unfold srLt in E. destruct (Z.ltb_spec (sr_d2 b) (sr_d2 a)); [discriminate|lia].
Qed.
Lemma isort_head l h t : isort srLt l = h :: t -> forall x, In x l -> sr_d2 h <= sr_d2 x.
Proof.
  revert h t. induction l as [|a l IH]; intros h t H x Hx; [destruct Hx|]. unfold isort in H. cbn [fold_right] in H. destruct (sinsert_head a (isort srLt l)) as (h' & t' & E & _ & D1 & D2). unfold isort in E, D2. rewrite E in H. injection H as -> ->.
  destruct Hx as [->|Hx]; [exact D1|]. destruct (fold_right (sinsert srLt) [] l) as [|b l'] eqn:F.
  - exfalso. pose proof (isort_perm srLt l) as P. unfold isort in P. rewrite F in P. apply Permutation_nil in P. subst l. destruct Hx.
  - specialize (D2 b l' eq_refl). specialize (IH b l' F x Hx). lia.
Qed.

Record builtBy (S : Z) (coordinates before after moves : pyval) (cs : list coord) (b a : list string) (mvs : list (Z * coord)) (p : kproc) : Prop := {
  bb_cs : readsCoords coordinates cs; bb_ne : cs <> [];
  bb_b : readsNames before b; bb_lb : zlen b = zlen cs;
  bb_a : readsNames after a; bb_la : zlen a = zlen cs;
  bb_wild : map (String.eqb "*") b = map (String.eqb "*") a; bb_change : b <> a;
  bb_moves : checkMoveVectors S (centred cs) b a moves = Ok mvs;
  bb_kmoves : resortMoves (sortRows (centred cs) b a) mvs = Ok (kp_moves p);
  bb_coords : kp_coords p = centred (map sr_c (sortRows (centred cs) b a));
  bb_before : kp_before p = map sr_before (sortRows (centred cs) b a);
  bb_after : kp_after p = map sr_after (sortRows (centred cs) b a) }.
Lemma checkTypes_inv l n ts : checkTypes l n = Ok ts -> l = map VStr ts /\ zlen ts = n.
Proof.
  unfold checkTypes. destruct (oall _ l) as [names|] eqn:E; cbn [MPy.obind]; [|discriminate]. destruct (Z.eqb_spec (zlen l) n) as [N|]; cbn [negb]; [|discriminate]. intros H. injection H as <-. apply oall_strs_inv in E. split; [exact E|]. subst l. rewrite zlen_map in N. exact N.
Qed.
Lemma checkTypes_ok ts : checkTypes (map VStr ts) (zlen ts) = Ok ts.
Proof. unfold checkTypes. rewrite oall_strs. cbn [MPy.obind]. rewrite zlen_map, Z.eqb_refl. reflexivity. Qed.
Lemma checkMoveElements_ok b a : checkMoveElements b a = Ok tt <-> map (String.eqb "*") b = map (String.eqb "*") a /\ b <> a.
Proof.
  unfold checkMoveElements. destruct (listEq Bool.eqb _ _) eqn:E; cbn [negb].
  - apply listEq_spec in E; [|apply Bool.eqb_true_iff]. destruct (listEq String.eqb b a) eqn:F.
    + apply listEq_str in F. split; [discriminate|]. intros [_ X]. contradiction.
    + split; [|reflexivity]. intros _. split; [exact E|]. intros X. apply listEq_str in X. congruence.
  - split; [discriminate|]. intros [X _]. apply (listEq_spec Bool.eqb) in X; [congruence|apply Bool.eqb_true_iff].
Qed.
Lemma KMCProcess_inv S coordinates before after moves basis rate p : KMCProcess S coordinates before after moves basis rate = Ok p ->
  exists cs b a mvs, builtBy S coordinates before after moves cs b a mvs p /\ checkBasis basis = Ok (kp_basis p) /\ checkRate rate = Ok (kp_rate p).
Proof.
  unfold KMCProcess. intros H. destruct (checkCoordinateList coordinates) as [cs|] eqn:E1; cbn [MPy.obind] in H; [|discriminate]. destruct (checkBasis basis) as [bs|] eqn:E2; cbn [MPy.obind] in H; [|discriminate]. destruct (checkRate rate) as [r|] eqn:E3; cbn [MPy.obind] in H; [|discriminate].
  destruct before as [| | | | |lb| |]; try discriminate. destruct (checkTypes lb _) as [b|] eqn:E4; cbn [MPy.obind] in H; [|discriminate].
  destruct after as [| | | | |la| |]; try discriminate. destruct (checkTypes la _) as [a|] eqn:E5; cbn [MPy.obind] in H; [|discriminate].
  destruct (checkMoveElements b a) as [[]|] eqn:E6; cbn [MPy.obind] in H; [|discriminate]. destruct (checkMoveVectors S _ b a moves) as [mvs|] eqn:E7; cbn [MPy.obind] in H; [|discriminate].
  destruct (resortMoves _ mvs) as [mvs'|] eqn:E8; cbn [MPy.obind] in H; [|discriminate]. injection H as <-. exists cs, b, a, mvs. split; [|auto].
  apply checkTypes_inv in E4, E5. destruct E4 as [-> L1], E5 as [-> L2]. rewrite centred_zlen in L1, L2. apply checkMoveElements_ok in E6. destruct E6 as [W N]. pose proof (checkCoordinateList_ne _ _ E1) as NE. apply readsCoords_ok in E1; [|exact NE].
  split; auto; reflexivity.
Qed.
Lemma resortMoves_ok rows mvs : (forall iv, In iv mvs -> 0 <= startOf (zlen rows) (fst iv) < zlen rows) ->
  resortMoves rows mvs = Ok (isort (fun a b => fst a <? fst b) (map (fun iv => (zfind (map sr_old rows) (startOf (zlen rows) (fst iv)), snd iv)) mvs)).
Proof.
  intros H. unfold resortMoves.
  assert (E : oall (fun iv => try k <- pyIndex (zlen rows) (fst iv) ;; Ok (zfind (map sr_old rows) k, snd iv)) mvs = Ok (map (fun iv => (zfind (map sr_old rows) (startOf (zlen rows) (fst iv)), snd iv)) mvs)).
  { induction mvs as [|iv mvs IH]; [reflexivity|]. cbn [oall map]. assert (X : pyIndex (zlen rows) (fst iv) = Ok (startOf (zlen rows) (fst iv))) by (apply pyIndex_ok; [apply zlen_nonneg|]; split; [reflexivity|apply H; left; reflexivity]). rewrite X. cbn [MPy.obind]. rewrite IH; [reflexivity|]. intros iv' Hin. apply H. right. exact Hin. }
  rewrite E. reflexivity.
Qed.
Lemma KMCProcess_ok S coordinates before after moves basis rate cs b a mvs bs r : cs <> [] -> readsCoords coordinates cs -> readsNames before b -> readsNames after a -> zlen b = zlen cs -> zlen a = zlen cs ->
  map (String.eqb "*") b = map (String.eqb "*") a -> b <> a -> checkBasis basis = Ok bs -> checkRate rate = Ok r -> checkMoveVectors S (centred cs) b a moves = Ok mvs ->
  (forall iv, In iv mvs -> 0 <= startOf (zlen cs) (fst iv) < zlen cs) ->
  exists p, KMCProcess S coordinates before after moves basis rate = Ok p.
Proof.
  intros NE Rc -> -> Lb La W N Eb Er Em Hs. unfold KMCProcess. apply readsCoords_ok in Rc; [|exact NE]. rewrite Rc. cbn [MPy.obind]. rewrite Eb, Er. cbn [MPy.obind]. rewrite centred_zlen, <- Lb, checkTypes_ok. cbn [MPy.obind]. rewrite Lb, <- La, checkTypes_ok. cbn [MPy.obind].
  rewrite (proj2 (checkMoveElements_ok b a)) by auto. cbn [MPy.obind]. rewrite Em. cbn [MPy.obind]. rewrite resortMoves_ok; [cbn [MPy.obind]; eexists; reflexivity|].
  intros iv Hin. unfold sortRows. rewrite isort_zlen. change (map _ (combine _ _)) with (sbase (centred cs) b a). rewrite sbase_zlen, centred_zlen by (rewrite centred_zlen; assumption). apply Hs. exact Hin.
Qed.

(** ** the sorted process has the rows the user gave *)
Section Rows.
Context (S : Z) (coordinates before after moves : pyval) (cs : list coord) (b a : list string) (mvs : list (Z * coord)) (p : kproc) (B : builtBy S coordinates before after moves cs b a mvs p).
Let rows := sortRows (centred cs) b a.
Lemma rows_perm : Permutation rows (sbase (centred cs) b a).
Proof. apply isort_perm. Qed.
Lemma rows_zlen : zlen rows = zlen cs.
Proof using B. rewrite (zlen_perm _ _ rows_perm), sbase_zlen, centred_zlen; rewrite ?centred_zlen; auto using (bb_lb _ _ _ _ _ _ _ _ _ _ B), (bb_la _ _ _ _ _ _ _ _ _ _ B). Qed.
Lemma rows_old : Permutation (map sr_old rows) (zrange 0 (zlen cs - 1)).
Proof using B. rewrite rows_perm, sbase_old, centred_zlen; rewrite ?centred_zlen; auto using (bb_lb _ _ _ _ _ _ _ _ _ _ B), (bb_la _ _ _ _ _ _ _ _ _ _ B). Qed.
Lemma rows_In r : In r rows <-> exists k c s t, zget cs k = Some c /\ zget b k = Some s /\ zget a k = Some t /\ r = mkSR (csub c (hd czero cs)) (cnorm2 (csub c (hd czero cs))) s t k.
Proof using B.
  pose proof (bb_lb _ _ _ _ _ _ _ _ _ _ B) as Lb. pose proof (bb_la _ _ _ _ _ _ _ _ _ _ B) as La. pose proof (bb_ne _ _ _ _ _ _ _ _ _ _ B) as NE.
  assert (HD : hd czero (centred cs) = czero). { destruct cs as [|c0 cs']; [congruence|]. cbn [centred map hd]. apply csub_self. }
  assert (N2 : forall c, csub c czero = c) by (intros c; coords).
  split.
  - intros H. apply (Permutation_in _ rows_perm) in H. apply In_zget in H. destruct H as [k H]. rewrite sbase_zget, centred_zget, HD in H by (rewrite centred_zlen; assumption). destruct (zget cs k) as [c|] eqn:E1; [|discriminate]. destruct (zget b k) as [s|] eqn:E2; [|discriminate]. destruct (zget a k) as [t|] eqn:E3; [|discriminate].
    cbn [option_map] in H. rewrite N2 in H. injection H as <-. exists k, c, s, t. auto.
  - intros (k & c & s & t & E1 & E2 & E3 & ->). apply (Permutation_in _ (Permutation_sym rows_perm)). apply (zget_In _ k). rewrite sbase_zget, centred_zget, HD, E1, E2, E3 by (rewrite centred_zlen; assumption). cbn [option_map]. rewrite N2. reflexivity.
Qed.
Lemma rows_head : hd czero (map sr_c rows) = czero.
Proof using B.
  pose proof (bb_ne _ _ _ _ _ _ _ _ _ _ B) as NE. pose proof (bb_lb _ _ _ _ _ _ _ _ _ _ B) as Lb. pose proof (bb_la _ _ _ _ _ _ _ _ _ _ B) as La.
  cut (forall l, rows = l -> hd czero (map sr_c l) = czero); [intros X; exact (X _ eq_refl)|]. intros [|h t] E; [reflexivity|]. cbn [map hd].
  assert (Ec : exists c0 cs', cs = c0 :: cs') by (clear -NE; destruct cs; [congruence|eauto]). destruct Ec as (c0 & cs' & Ec).
  assert (Z0 : zget cs 0 = Some c0) by (rewrite Ec; reflexivity). pose proof (zget_range _ _ _ Z0). destruct (zget_lt b 0) as [s Hs]; [lia|]. destruct (zget_lt a 0) as [u Hu]; [lia|].
  assert (HC : hd czero cs = c0) by (rewrite Ec; reflexivity).
  assert (I0 : In (mkSR czero 0 s u 0) rows). { apply rows_In. exists 0, c0, s, u. rewrite HC, csub_self. auto. }
  assert (Ih : In h rows) by (rewrite E; left; reflexivity). apply rows_In in Ih. destruct Ih as (k & c & s' & t' & X1 & X2 & X3 & ->). cbn [sr_c].
  unfold rows, sortRows in E. pose proof (isort_head _ _ _ E) as M.
  apply (Permutation_in _ rows_perm) in I0. specialize (M _ I0). cbn [sr_d2] in M. apply cnorm2_zero.
  assert (NN : forall x, 0 <= cnorm2 x) by (intros x; unfold cnorm2; nia). specialize (NN (csub c (hd czero cs))). lia.
Qed.
Lemma kp_coords_rows : kp_coords p = map sr_c rows.
Proof using B.
  rewrite (bb_coords _ _ _ _ _ _ _ _ _ _ B). fold rows. pose proof rows_head as H. revert H. generalize rows. intros [|h t] H; [reflexivity|]. cbn [map hd] in H. cbn [map centred]. rewrite H. rewrite map_map.
  assert (N2 : forall c, csub c czero = c) by (intros c; coords). rewrite N2. f_equal; try exact H. apply map_ext. intros r. apply N2.
Qed.
Lemma checkMoveVectors_start : 0 < S <= 100000000 -> forall iv, In iv mvs -> exists k j s, leads cs iv k j /\ zget b k = Some s /\ zget a j = Some s.
Proof using B.
  intros HS. pose proof (bb_moves _ _ _ _ _ _ _ _ _ _ B) as M. unfold checkMoveVectors in M. destruct (match moves with VNone => _ | _ => _ end) as [[given|]|] eqn:G; cbn [MPy.obind] in M; [|injection M as <-; intros iv []|discriminate].
  destruct (applyMoves S (centred cs) b a b given) as [moved|] eqn:E; cbn [MPy.obind] in M; [|discriminate]. destruct (listEq _ a moved); [|discriminate]. injection M as ->.
  apply applyMoves_inv in E; rewrite ?centred_zlen; auto using (bb_lb _ _ _ _ _ _ _ _ _ _ B), (bb_la _ _ _ _ _ _ _ _ _ _ B). destruct E as (E & _). intros iv Hin. destruct (E iv Hin) as (k & j & s & L & X). exists k, j, s. split; [apply leads_centred; exact L|exact X].
Qed.
Lemma start_range : 0 < S <= 100000000 -> forall iv, In iv mvs -> 0 <= startOf (zlen cs) (fst iv) < zlen cs.
Proof using B. intros HS iv Hin. destruct (checkMoveVectors_start HS iv Hin) as (k & j & s & (-> & x & X & _) & _). exact (zget_range _ _ _ X). Qed.
Lemma kp_moves_In : 0 < S <= 100000000 -> forall k v, In (k, v) (kp_moves p) <-> exists i, In (i, v) mvs /\ zget (map sr_old rows) k = Some (startOf (zlen cs) i).
Proof using B.
  intros HS k v. pose proof (bb_kmoves _ _ _ _ _ _ _ _ _ _ B) as M. fold rows in M. rewrite resortMoves_ok in M by (rewrite rows_zlen; apply start_range; exact HS). injection M as M. rewrite <- M, isort_In, in_map_iff. rewrite rows_zlen.
  assert (ND : NoDup (map sr_old rows)) by (apply (Permutation_NoDup (Permutation_sym rows_old)); apply NoDup_zrange).
  assert (IN : forall iv, In iv mvs -> In (startOf (zlen cs) (fst iv)) (map sr_old rows)). { intros iv Hin. apply (Permutation_in _ (Permutation_sym rows_old)). apply In_zrange. pose proof (start_range HS iv Hin). lia. }
  split.
  - intros ([i w] & E & Hin). cbn [fst snd] in E. injection E as <- <-. exists i. split; [exact Hin|]. apply zfind_spec. exact (IN _ Hin).
  - intros (i & Hin & Z). exists (i, v). split; [|exact Hin]. cbn [fst snd]. f_equal. apply resort_zfind; assumption.
Qed.
Lemma kp_moves_range : 0 < S <= 100000000 -> forall iv, In iv (kp_moves p) -> 0 <= fst iv < zlen cs.
Proof using B. intros HS [k v] H. apply (kp_moves_In HS) in H. destruct H as (i & _ & Z). apply zget_range in Z. rewrite zlen_map, rows_zlen in Z. exact Z. Qed.
Lemma kp_moves_NoDup : 0 < S <= 100000000 -> NoDup (starts (zlen cs) mvs) -> NoDup (map fst (kp_moves p)).
Proof using B.
  intros HS ND. pose proof (bb_kmoves _ _ _ _ _ _ _ _ _ _ B) as M. fold rows in M. rewrite resortMoves_ok in M by (rewrite rows_zlen; apply start_range; exact HS). injection M as M. rewrite <- M.
  apply (Permutation_NoDup (Permutation_sym (Permutation_map fst (isort_perm _ _)))). rewrite map_map. cbn [fst]. rewrite rows_zlen. rewrite <- (map_map (fun iv => startOf (zlen cs) (fst iv)) (zfind (map sr_old rows))). apply NoDup_map_inj; [|exact ND].
  assert (IN : forall x, In x (starts (zlen cs) mvs) -> In x (map sr_old rows)). { intros x Hx. apply in_map_iff in Hx. destruct Hx as (iv & <- & Hin). apply (Permutation_in _ (Permutation_sym rows_old)). apply In_zrange. pose proof (start_range HS iv Hin). lia. }
  intros x y Hx Hy E. apply (zfind_inj (map sr_old rows)); auto.
Qed.
Lemma starts_kp : 0 < S <= 100000000 -> starts (zlen cs) (kp_moves p) = map fst (kp_moves p).
Proof using B. intros HS. apply map_ext_in. intros iv Hin. apply startOf_nonneg. pose proof (kp_moves_range HS iv Hin). lia. Qed.
Definition asRow (r : srow) : row := mkRow (sr_c r) (sr_before r) (sr_after r) (vectorFrom (zlen cs) mvs (sr_old r)).
Lemma kpRows_asRow : 0 < S <= 100000000 -> NoDup (starts (zlen cs) mvs) -> kpRows p = map asRow rows.
Proof using B.
  intros HS ND. unfold kpRows, rowsOf. rewrite (bb_before _ _ _ _ _ _ _ _ _ _ B), (bb_after _ _ _ _ _ _ _ _ _ _ B), kp_coords_rows. fold rows. rewrite rows_head, zlen_map, rows_zlen.
  apply PBase.zget_ext. intros k. rewrite !zget_map, !zget_combine, !zget_map, zget_zrange0. destruct (zget rows k) as [r|] eqn:E; [|reflexivity]. cbn [option_map]. pose proof (zget_range _ _ _ E) as R. rewrite rows_zlen in R. destruct (Z.leb_spec 0 k); [|lia]. destruct (Z.ltb_spec k (zlen cs)); [|lia]. cbn [andb option_map].
  f_equal. unfold asRow. f_equal; [coords|].
  assert (ND' : NoDup (starts (zlen cs) (kp_moves p))) by (rewrite starts_kp by exact HS; apply kp_moves_NoDup; assumption).
  assert (IFF : forall v, vectorFrom (zlen cs) (kp_moves p) k = Some v <-> vectorFrom (zlen cs) mvs (sr_old r) = Some v).
  { intros v. rewrite !vectorFrom_spec by assumption. split.
    - intros (i & Hin & Es). pose proof (kp_moves_range HS _ Hin) as Ri. cbn [fst] in Ri. rewrite startOf_nonneg in Es by lia. subst i. apply (kp_moves_In HS) in Hin. destruct Hin as (i & Hin & Z). rewrite zget_map, E in Z. cbn [option_map] in Z. exists i. split; [exact Hin|congruence].
    - intros (i & Hin & Es). exists k. split; [|apply startOf_nonneg; lia]. apply (kp_moves_In HS). exists i. split; [exact Hin|]. rewrite zget_map, E. cbn [option_map]. congruence. }
  destruct (vectorFrom (zlen cs) (kp_moves p) k) as [v|]; [symmetry; apply IFF; reflexivity|]. destruct (vectorFrom (zlen cs) mvs (sr_old r)) as [v|]; [|reflexivity]. destruct (IFF v) as [_ X]. specialize (X eq_refl). discriminate.
Qed.
Lemma kpRows_perm : 0 < S <= 100000000 -> NoDup (starts (zlen cs) mvs) -> Permutation (kpRows p) (rowsOf cs b a mvs).
Proof using B.
  intros HS ND. rewrite kpRows_asRow by assumption. pose proof (Permutation_map asRow rows_perm) as P. rewrite P. clear P. pose proof (bb_lb _ _ _ _ _ _ _ _ _ _ B) as Lb. pose proof (bb_la _ _ _ _ _ _ _ _ _ _ B) as La.
  replace (map asRow (sbase (centred cs) b a)) with (rowsOf cs b a mvs); [reflexivity|]. apply PBase.zget_ext. intros k. unfold rowsOf. rewrite !zget_map, !zget_combine, zget_zrange0, sbase_zget, centred_zget by (rewrite centred_zlen; assumption).
  destruct (zget cs k) as [c|] eqn:E; [|destruct (zget b k), (zget a k); reflexivity]. cbn [option_map]. pose proof (zget_range _ _ _ E). destruct (zget b k); [|reflexivity]. destruct (zget a k); [|reflexivity]. destruct (Z.leb_spec 0 k); [|lia]. destruct (Z.ltb_spec k (zlen cs)); [|lia]. reflexivity.
Qed.
Lemma kpRows_movesGiven : 0 < S <= 100000000 -> NoDup (starts (zlen cs) mvs) -> movesGiven (kpRows p) (map fst (kp_moves p)) (map snd (kp_moves p)).
Proof using B.
  intros HS ND. assert (LR : zlen (kpRows p) = zlen cs) by (rewrite kpRows_asRow, zlen_map by assumption; apply rows_zlen). split; [rewrite !zlen_map; reflexivity|]. split; [apply kp_moves_NoDup; assumption|]. split.
  { intros o Ho. apply in_map_iff in Ho. destruct Ho as (iv & <- & Hin). rewrite LR. apply kp_moves_range; assumption. }
  intros i r v Hr. rewrite kpRows_asRow, zget_map in Hr by assumption. destruct (zget rows i) as [sr|] eqn:E; [|discriminate]. injection Hr as <-. cbn [asRow rw_move]. rewrite vectorFrom_spec by exact ND. split.
  - intros (i' & Hin & Es). assert (K : In (i, v) (kp_moves p)). { apply (kp_moves_In HS). exists i'. split; [exact Hin|]. rewrite zget_map, E. cbn [option_map]. congruence. } apply In_zget in K. destruct K as [n K]. exists n. rewrite !zget_map, K. auto.
  - intros (n & K1 & K2). rewrite zget_map in K1. rewrite zget_map in K2. destruct (zget (kp_moves p) n) as [[x y]|] eqn:K; [|discriminate]. cbn [option_map fst snd] in K1, K2. injection K1 as ->. injection K2 as ->. apply zget_In in K. apply (kp_moves_In HS) in K. destruct K as (i' & Hin & Z). rewrite zget_map, E in Z. cbn [option_map] in Z. exists i'. split; [exact Hin|congruence].
Qed.
End Rows.
