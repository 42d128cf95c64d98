(** Proofs: what the rate calculator is told about the surroundings of an event. *)
From Coq Require Import Sorted.
From Verif Require Import PBase SModel SGeo SRates MCallback PLattice PProcess PMpi PRateTable PMatcher PPerform PStep PGeo PPossible PRun PEffect PBuild PPlain PRow PStepInv PBucket PRegular PRates PRematch TStep.
Open Scope string_scope.
Open Scope list_scope.
Open Scope Z_scope.

Lemma zget_NoDup {A} (l : list A) : (forall i j a, zget l i = Some a -> zget l j = Some a -> i = j) -> NoDup l.
Proof.
  induction l as [|a l IH]; intros H; constructor.
  - intros Hin. apply In_zget in Hin. destruct Hin as [j Ej]. apply zget_range in Ej as R. assert (0 = j + 1); [|lia]. apply (H _ _ a); [reflexivity|].
    rewrite zget_cons. destruct (Z.eqb_spec (j + 1) 0); [lia|]. replace (j + 1 - 1) with j by lia. exact Ej.
  - apply IH. intros i j b Ei Ej. apply zget_range in Ei as R. apply zget_range in Ej as R'. assert (i + 1 = j + 1); [|lia]. apply (H _ _ b); rewrite zget_cons;
    [destruct (Z.eqb_spec (i + 1) 0); [lia|]; replace (i + 1 - 1) with i by lia; exact Ei|destruct (Z.eqb_spec (j + 1) 0); [lia|]; replace (j + 1 - 1) with j by lia; exact Ej].
Qed.
(** ** the sites within the cutoff *)
Lemma clt_norm a b : clt a b = true -> cnorm2 a <= cnorm2 b.
Proof. unfold clt. destruct (Z.eqb_spec (cnorm2 a) (cnorm2 b)); [lia|]. intros H. apply Z.ltb_lt in H. lia. Qed.
Lemma csorted_norm l : csorted l -> forall j k a b, j <= k -> zget l j = Some a -> zget l k = Some b -> cnorm2 a <= cnorm2 b.
Proof.
  unfold csorted. induction 1 as [|c l HS IH HF]; intros j k a b Hjk Ha Hb; [rewrite zget_nil in Ha; discriminate|].
  rewrite zget_cons in Ha. rewrite zget_cons in Hb. destruct (Z.eqb_spec j 0) as [->|Hj], (Z.eqb_spec k 0) as [->|Hk].
  - assert (a = b) by congruence. subst. lia.
  - inversion Ha; subst. rewrite Forall_forall in HF. apply clt_norm, HF. eapply zget_In; eauto.
  - apply zget_range in Ha. lia.
  - eapply IH; [|exact Ha|exact Hb]. lia.
Qed.
Lemma withinCutoff_prefix cut cl : forall env, withinCutoff cut cl = Some env ->
  (forall j e, zget env j = Some e -> zget cl j = Some e /\ ce_d2 e <= cut) /\
  exists k e, k = zlen env /\ zget cl k = Some e /\ cut < ce_d2 e.
Proof.
  induction cl as [|a cl IH]; intros env H; cbn [withinCutoff] in H; [discriminate|]. destruct (Z.leb_spec (ce_d2 a) cut) as [Hl|Hl].
  - ob H as r Er. inversion H; subst env. destruct (IH r Er) as (A & k & e & Hk & B & C). split.
    + intros j e' Ej. rewrite zget_cons in Ej. rewrite zget_cons. destruct (j =? 0); [inversion Ej; subst; auto|auto].
    + exists (k + 1), e. rewrite zlen_cons, zget_cons. split; [lia|]. pose proof (zlen_nonneg r). destruct (Z.eqb_spec (k + 1) 0); [lia|]. replace (k + 1 - 1) with k by lia. auto.
  - inversion H; subst env. split; [intros j e; rewrite zget_nil; discriminate|]. exists 0, a. rewrite zget_cons. auto.
Qed.
Lemma withinCutoff_all cut cl env : withinCutoff cut cl = Some env -> csorted (map ce_c cl) -> (forall e, In e cl -> ce_d2 e = cnorm2 (ce_c e)) ->
  forall e, In e cl -> cnorm2 (ce_c e) <= cut -> In e env.
Proof.
  intros H HS HD e He Hc. destruct (withinCutoff_prefix _ _ _ H) as (A & k & f & Hk & B & C). apply In_zget in He. destruct He as [j Ej].
  destruct (Z_lt_le_dec j k) as [Hlt|Hge].
  - destruct (zget_lt env j) as [e' E']; [apply zget_range in Ej; lia|]. destruct (A _ _ E') as [X _]. assert (e' = e) by congruence. subst. eapply zget_In; eauto.
  - exfalso. assert (cnorm2 (ce_c f) <= cnorm2 (ce_c e)).
    { eapply (csorted_norm _ HS k j); [lia|rewrite zget_map, B; reflexivity|rewrite zget_map, Ej; reflexivity]. }
    rewrite (HD f) in C by (eapply zget_In; eauto). lia.
Qed.

(** ** the types after the event *)
Record afterFx (cf : config) (l : list pentry) (k : Z) (acc acc' : list string * list bucket) : Prop := {
  af_len : zlen (fst acc') = zlen (fst acc) /\ zlen (snd acc') = zlen (snd acc);
  af_fit : l <> [] -> 0 <= k /\ k + zlen l <= zlen (snd acc);
  af_upd : forall i e, zget l i = Some e -> zget (snd acc') (k + i) = Some (pe_upd e);
  af_updo : forall j, j < k \/ k + zlen l <= j -> zget (snd acc') j = zget (snd acc) j;
  af_typ : forall i e, zget l i = Some e ->
     (zsum (map Z.abs (pe_upd e)) = 0 \/ beqi (pe_upd e) 0 = Some true \/ firstOne (pe_upd e) 0 = None) /\ zget (fst acc') (k + i) = zget (fst acc) (k + i) \/
     exists t s, zsum (map Z.abs (pe_upd e)) <> 0 /\ beqi (pe_upd e) 0 = Some false /\ firstOne (pe_upd e) 0 = Some t /\ zget (cf_names cf) t = Some s /\ zget (fst acc') (k + i) = Some s;
  af_typo : forall j, j < k \/ k + zlen l <= j -> zget (fst acc') j = zget (fst acc) j }.

Lemma afterStep_fx cf k e acc acc' : afterStep cf acc (k, e) = Some acc' -> afterFx cf [e] k acc acc'.
Proof.
  destruct acc as [ty up]. unfold afterStep. cbn [fst snd]. intros H. ob H as up' Eu.
  assert (HK : 0 <= k < zlen up) by (unfold zset in Eu; destruct (Z.leb_spec 0 k), (Z.ltb_spec k (zlen up)); cbn [andb] in Eu; try discriminate; lia).
  assert (HU : forall ty', zlen ty' = zlen ty ->
    ((zsum (map Z.abs (pe_upd e)) = 0 \/ beqi (pe_upd e) 0 = Some true \/ firstOne (pe_upd e) 0 = None) /\ zget ty' k = zget ty k \/
     exists t s, zsum (map Z.abs (pe_upd e)) <> 0 /\ beqi (pe_upd e) 0 = Some false /\ firstOne (pe_upd e) 0 = Some t /\ zget (cf_names cf) t = Some s /\ zget ty' k = Some s) ->
    (forall j, j <> k -> zget ty' j = zget ty j) -> afterFx cf [e] k (ty, up) (ty', up')).
  { intros ty' HL HT HO. constructor; cbn [fst snd]; change (zlen [e]) with 1.
    - split; [exact HL|eapply zset_len; eauto].
    - intros _. lia.
    - intros i e' Ei. rewrite zget_cons in Ei. destruct (Z.eqb_spec i 0) as [->|]; [|rewrite zget_nil in Ei; discriminate]. inversion Ei; subst e'. rewrite (zset_get _ _ _ _ _ Eu). rewrite Z.add_0_r, Z.eqb_refl. reflexivity.
    - intros j Hj. rewrite (zset_get _ _ _ _ _ Eu). destruct (Z.eqb_spec j k); [lia|reflexivity].
    - intros i e' Ei. rewrite zget_cons in Ei. destruct (Z.eqb_spec i 0) as [->|]; [|rewrite zget_nil in Ei; discriminate]. inversion Ei; subst e'. rewrite Z.add_0_r. exact HT.
    - intros j Hj. apply HO. lia. }
  destruct (Z.eqb_spec (zsum (map Z.abs (pe_upd e))) 0) as [E0|E0]; [inversion H; subst; apply HU; auto|].
  ob H as w Ew. destruct w; [inversion H; subst; apply HU; auto|].
  destruct (firstOne (pe_upd e) 0) as [t|] eqn:Et; [|inversion H; subst; apply HU; auto].
  ob H as s Es. ob H as ty' Ety. inversion H; subst. apply HU.
  - eapply zset_len; eauto.
  - right. exists t, s. rewrite (zset_get _ _ _ _ _ Ety), Z.eqb_refl. auto.
  - intros j Hj. rewrite (zset_get _ _ _ _ _ Ety). destruct (Z.eqb_spec j k); [lia|reflexivity].
Qed.
Lemma afterFold_fx cf l : forall k acc acc', ofold (afterStep cf) (combine (zrange k (k + zlen l - 1)) l) acc = Some acc' -> afterFx cf l k acc acc'.
Proof.
  induction l as [|e l IH]; intros k acc acc' H.
  - rewrite zrange_empty in H by (change (zlen (@nil pentry)) with 0; lia). cbn [combine ofold] in H. inversion H; subst.
    constructor; auto; try (intros i e'; rewrite zget_nil; discriminate). congruence.
  - rewrite zlen_cons in H. pose proof (zlen_nonneg l) as HN. rewrite zrange_cons in H by lia. cbn [combine ofold] in H. ob H as a1 E1.
    replace (k + (zlen l + 1) - 1) with (k + 1 + zlen l - 1) in H by lia.
    apply afterStep_fx in E1. apply IH in H. destruct E1 as [A1 A2 A3 A4 A5 A6], H as [B1 B2 B3 B4 B5 B6]. change (zlen [e]) with 1 in *.
    assert (A3' := A3 0 e eq_refl). assert (A5' := A5 0 e eq_refl). rewrite Z.add_0_r in *. specialize (A2 ltac:(discriminate)).
    constructor; rewrite ?zlen_cons.
    + split; [destruct A1, B1; congruence|destruct A1, B1; congruence].
    + intros _. split; [lia|]. destruct l as [|e' l']; [change (zlen (@nil pentry)) with 0; lia|]. specialize (B2 ltac:(discriminate)). destruct A1 as [_ A1]. lia.
    + intros i e' Ei. rewrite zget_cons in Ei. destruct (Z.eqb_spec i 0) as [->|Hi].
      * inversion Ei; subst e'. rewrite Z.add_0_r, B4 by lia. exact A3'.
      * replace (k + i) with (k + 1 + (i - 1)) by lia. auto.
    + intros j Hj. rewrite B4 by lia. apply A4. lia.
    + intros i e' Ei. rewrite zget_cons in Ei. destruct (Z.eqb_spec i 0) as [->|Hi].
      * inversion Ei; subst e'. rewrite Z.add_0_r, B6 by lia. exact A5'.
      * pose proof (zget_range _ _ _ Ei). replace (k + i) with (k + 1 + (i - 1)) by lia. rewrite <- (A6 (k + 1 + (i - 1))) by lia. auto.
    + intros j Hj. rewrite B6 by lia. apply A6. lia.
Qed.

(** ** the row of a type change *)
Lemma list_eqb_eq a : forall b, list_eqb a b = true -> a = b.
Proof. induction a as [|x a IH]; intros [|y b] H; cbn [list_eqb] in H; try discriminate; [reflexivity|]. apply andb_true_iff in H. destruct H as [H1 H2]. apply Z.eqb_eq in H1. f_equal; auto. Qed.
Lemma firstOne_spec u : forall k t, firstOne u k = Some t -> zget u (t - k) = Some 1 /\ k <= t.
Proof.
  induction u as [|v u IH]; intros k t H; cbn [firstOne] in H; [discriminate|]. destruct (Z.eqb_spec v 1) as [->|].
  - inversion H; subst. rewrite Z.sub_diag. split; [reflexivity|lia].
  - destruct (IH _ _ H) as [A B]. split; [|lia]. rewrite zget_cons. destruct (Z.eqb_spec (t - k) 0); [lia|]. replace (t - k - 1) with (t - (k + 1)) by lia. exact A.
Qed.
Lemma firstOne_some u k j : zget u j = Some 1 -> firstOne u k <> None.
Proof.
  revert k j. induction u as [|v u IH]; intros k j H; [rewrite zget_nil in H; discriminate|]. cbn [firstOne]. destruct (Z.eqb_spec v 1); [discriminate|].
  rewrite zget_cons in H. destruct (j =? 0); [congruence|]. eapply IH; eauto.
Qed.
Lemma zsum_abs_nonneg u : 0 <= zsum (map Z.abs u).
Proof. induction u as [|v u IH]; cbn [map]; [cbn; lia|]. rewrite zsum_cons. lia. Qed.
Lemma zsum_abs_zero u : zsum (map Z.abs u) = 0 <-> forall j a, zget u j = Some a -> a = 0.
Proof.
  induction u as [|v u IH]; cbn [map].
  - split; [|reflexivity]. intros _ j a. rewrite zget_nil. discriminate.
  - rewrite zsum_cons. pose proof (zsum_abs_nonneg u). split.
    + intros H' j a E. rewrite zget_cons in E. destruct (j =? 0); [inversion E; subst; lia|]. eapply IH; [lia|exact E].
    + intros H'. pose proof (H' 0 v eq_refl). subst v. assert (zsum (map Z.abs u) = 0); [|cbn; lia]. apply IH. intros j a E. apply zget_range in E as R. apply (H' (j + 1)). rewrite zget_cons. destruct (Z.eqb_spec (j + 1) 0); [lia|]. replace (j + 1 - 1) with j by lia. exact E.
Qed.

(** ** Python conversion *)
Lemma concat_In {A} (ls : list (list A)) a : In a (concat ls) <-> exists l, In l ls /\ In a l.
Proof. apply in_concat. Qed.
Lemma siteToPython_In pt names t l : wfPT pt -> zlen names = zlen pt -> (forall s k, tfind pt s = Some k -> zget names k = Some s) -> zlen t = zlen pt ->
  siteToPython names t = Some l -> forall n s, In (n, s) l <-> s <> "*" /\ 0 < n /\ exists k, tfind pt s = Some k /\ zget t k = Some n.
Proof.
  intros WP NL NM HT H n s. unfold siteToPython in H. ob H as ls E. inversion H; subst l. rewrite concat_In. pose proof WP as (_ & _ & W0). split.
  - intros (l & Hl & Hin). destruct (omap_In _ _ _ _ E Hl) as (j & Hj & Ej). apply In_zrange in Hj. ob Ej as s' Es. ob Ej as m Em. inversion Ej; subst l.
    destruct (Z.ltb_spec 0 m) as [Hm|]; [|destruct Hin]. destruct Hin as [Hin|[]]. inversion Hin; subst m s'.
    destruct (kind_name _ WP j) as [s' Ek]; [lia|]. rewrite (NM _ _ Ek) in Es. inversion Es; subst s'. split; [|split; [exact Hm|exists j; auto]].
    intros ->. rewrite W0 in Ek. inversion Ek. lia.
  - intros (Hs & Hn & k & Ek & Et). pose proof (tfind_range _ _ _ WP Ek) as Rk. assert (k <> 0) by (intros ->; apply Hs; eapply tfind_inj; eauto).
    destruct (omap_In_l _ _ _ k E) as (l & Hl & El); [apply In_zrange; lia|]. rewrite (NM _ _ Ek), Et in El. cbn [obind] in El. destruct (Z.ltb_spec 0 n); [|lia]. inversion El; subst l. exists [(n, s)]. split; [exact Hl|left; reflexivity].
Qed.
Lemma siteToPython_nodup pt names t l : wfPT pt -> zlen names = zlen pt -> (forall s k, tfind pt s = Some k -> zget names k = Some s) -> zlen t = zlen pt ->
  siteToPython names t = Some l -> NoDup (map snd l).
Proof.
  intros WP NL NM HT H. unfold siteToPython in H. ob H as ls E. inversion H; subst l. clear H.
  assert (G : forall js ls, NoDup js -> (forall j, In j js -> 0 <= j < zlen pt) -> omap (fun j => s <- zget names j ;; n <- zget t j ;; Some (if 0 <? n then [(n, s)] else [])) js = Some ls ->
     NoDup (map snd (concat ls)) /\ forall s, In s (map snd (concat ls)) -> exists j, In j js /\ zget names j = Some s).
  { clear E ls. induction js as [|j js IH]; intros ls ND HJ E; cbn [omap] in E; [inversion E; subst; split; [constructor|intros s []]|].
    ob E as a Ea. ob E as b Eb. inversion E; subst ls. ob Ea as s Es. ob Ea as n En. inversion Ea; subst a. inversion ND; subst.
    destruct (IH b) as [I1 I2]; [assumption|intros k Hk; apply HJ; right; exact Hk|exact Eb|]. cbn [concat]. rewrite map_app. destruct (0 <? n); cbn [map app snd].
    - split.
      + constructor; [|exact I1]. intros Hin. apply I2 in Hin. destruct Hin as (k & Hk & Ek).
        destruct (kind_name _ WP j) as [s1 E1]; [apply HJ; left; reflexivity|]. destruct (kind_name _ WP k) as [s2 E2]; [apply HJ; right; exact Hk|].
        pose proof (NM _ _ E1) as F1. pose proof (NM _ _ E2) as F2. assert (s1 = s2) by congruence. subst s2. assert (j = k) by congruence. subst k. contradiction.
      + intros s' [<-|Hs]; [exists j; split; [left; reflexivity|exact Es]|]. destruct (I2 _ Hs) as (k & Hk & Ek). exists k. split; [right; exact Hk|exact Ek].
    - split; [exact I1|]. intros s' Hs. destruct (I2 _ Hs) as (k & Hk & Ek). exists k. split; [right; exact Hk|exact Ek]. }
  eapply G; [apply NoDup_zrange| |exact E]. intros j Hj. apply In_zrange in Hj. lia.
Qed.
Lemma siteToPython_total names t : zlen t <= zlen names -> siteToPython names t <> None.
Proof.
  intros H. unfold siteToPython. destruct (omap _ _) eqn:E; [discriminate|]. exfalso. revert E. assert (X : exists r, omap (fun j => s <- zget names j ;; n <- zget t j ;; Some (if 0 <? n then [(n, s)] else [])) (zrange 1 (zlen t - 1)) = Some r); [|destruct X as [r ->]; discriminate].
  apply omap_total. intros j Hj. apply In_zrange in Hj. destruct (zget_lt names j) as [s ->]; [lia|]. destruct (zget_lt t j) as [n ->]; [lia|]. cbn [obind]. eauto.
Qed.
Lemma bucketAdd_get a b : zlen a = zlen b -> exists c, bucketAdd a b = Some c /\ zlen c = zlen a /\ forall k x y, zget a k = Some x -> zget b k = Some y -> zget c k = Some (x + y).
Proof.
  intros H. unfold bucketAdd. rewrite H, Z.eqb_refl. eexists. split; [reflexivity|]. split.
  - rewrite zlen_map. unfold zlen in *. rewrite combine_length. lia.
  - intros k x y Ex Ey. rewrite zget_map. assert (X : zget (combine a b) k = Some (x, y)); [|rewrite X; reflexivity].
    clear H. revert b k Ex Ey. induction a as [|u a IH]; intros [|v b] k Ex Ey; rewrite ?zget_nil in *; try discriminate. cbn [combine]. rewrite zget_cons in Ex. rewrite zget_cons in Ey. rewrite zget_cons.
    destruct (k =? 0); [congruence|auto].
Qed.

(** ** the lattice within the cutoff *)
Lemma axis_cells p rep R i i' v S delta cut2 : 0 < S -> uniformAxis p rep R -> 0 <= i < rep -> 0 <= i' < rep ->
  sameMod p (rep * S) (delta + i' * S - i * S) v -> (forall n, (delta + n * S) * (delta + n * S) <= cut2 -> Z.abs n <= R) -> v * v <= cut2 ->
  exists n, reach1 p rep R n /\ v = delta + n * S.
Proof.
  intros HS HU Hi Hi' HM HC Hv. unfold sameMod in HM. unfold reach1. destruct HU as [[-> _]|[-> HU]].
  - destruct HM as [n ->]. exists (i' - i + n * rep). split; [exists 0; replace (i' - i + n * rep + 0 * rep) with (i' - i + n * rep) by lia|lia].
    apply HC. replace (delta + (i' - i + n * rep) * S) with (delta + i' * S - i * S + n * (rep * S)) by lia. exact Hv.
  - exists 0. assert (i = 0) by lia. assert (i' = 0) by lia. subst. split; [reflexivity|lia].
Qed.
Lemma cut_reach L basis R x y d cut2 : wf_lattice L -> wf_basis L basis -> uniform L R -> coversCut L basis R cut2 -> 0 <= x < nsites L -> 
  siteAt L (generateLatticeSites L basis) x d y -> shortest L d -> cnorm2 d <= cut2 -> inReach L basis R (basisSiteFromIndex L x) d.
Proof.
  intros WF WB (U1 & U2 & U3) CC Hx (c & e & Ec & Ee & (M1 & M2 & M3)) (W1 & W2 & W3) Hd.
  assert (Hy : 0 <= y < nsites L) by (eapply coords_range; eauto). pose proof (wfl_unit _ WF) as HS.
  destruct (site_coord_get L WF basis WB x c Hx Ec) as (i & j & k & b & beta & Hs & -> & Eb & _ & ->).
  destruct (site_coord_get L WF basis WB y e Hy Ee) as (i' & j' & k' & b' & beta' & Hs' & -> & Eb' & _ & ->).
  unfold csub in *. cbn [cx cy cz] in *. destruct Hs as (I1 & I2 & I3 & I4), Hs' as (J1 & J2 & J3 & J4).
  assert (N : cx d * cx d <= cut2 /\ cy d * cy d <= cut2 /\ cz d * cz d <= cut2).
  { unfold cnorm2 in Hd. pose proof (Z.square_nonneg (cx d)). pose proof (Z.square_nonneg (cy d)). pose proof (Z.square_nonneg (cz d)). lia. }
  destruct N as (N1 & N2 & N3). pose proof (fun n => CC beta beta' n (zget_In _ _ _ Eb) (zget_In _ _ _ Eb')) as CC'.
  rewrite (basis_global L WF i j k b) by (unfold isSite; auto).
  replace (cx beta' + i' * lt_unit L - (cx beta + i * lt_unit L)) with (cx beta' - cx beta + i' * lt_unit L - i * lt_unit L) in M1 by lia.
  replace (cy beta' + j' * lt_unit L - (cy beta + j * lt_unit L)) with (cy beta' - cy beta + j' * lt_unit L - j * lt_unit L) in M2 by lia.
  replace (cz beta' + k' * lt_unit L - (cz beta + k * lt_unit L)) with (cz beta' - cz beta + k' * lt_unit L - k * lt_unit L) in M3 by lia.
  destruct (axis_cells _ _ _ _ _ _ _ _ cut2 HS U1 I1 J1 M1 (fun n => proj1 (CC' n)) N1) as (n1 & R1 & V1).
  destruct (axis_cells _ _ _ _ _ _ _ _ cut2 HS U2 I2 J2 M2 (fun n => proj1 (proj2 (CC' n))) N2) as (n2 & R2 & V2).
  destruct (axis_cells _ _ _ _ _ _ _ _ cut2 HS U3 I3 J3 M3 (fun n => proj2 (proj2 (CC' n))) N3) as (n3 & R3 & V3).
  exists b', beta, beta', n1, n2, n3. split; [exact Eb|]. split; [exact Eb'|]. split; [exact R1|]. split; [exact R2|]. split; [exact R3|]. split; [|auto].
  rewrite <- V1, <- V2, <- V3. destruct d; reflexivity.
Qed.

(** ** the widths of the padded match lists *)
Lemma initWildcard_width c : zlen (pe_match (initWildcard c)) = zlen (ce_types c) /\ zlen (pe_upd (initWildcard c)) = zlen (ce_types c).
Proof. unfold initWildcard. cbn [pe_match pe_upd]. rewrite !zlen_map. split; [|reflexivity]. rewrite zlen_zrange. pose proof (zlen_nonneg (ce_types c)). lia. Qed.
Lemma reach_entry_width ranks hash L cf it spec md i p' e : userInput ranks L cf it spec -> reachable ranks hash L cf it md ->
  zget (in_procs (md_in md)) i = Some p' -> In e (pr_ml p') -> zlen (pe_match e) = zlen (cf_ptypes cf) /\ zlen (pe_upd e) = zlen (cf_ptypes cf).
Proof.
  intros UI HR Ep' He. pose proof (ui_wf _ _ _ _ _ UI) as WI. destruct (reachable_info _ _ _ _ _ _ WI HR) as (cf1 & it2 & RI).
  destruct (reachable_proc _ _ _ _ _ _ _ _ _ _ RI Ep') as (p & q & Ep & _ & Hs & HQ). apply pstatic_fields in Hs. destruct Hs as (_ & _ & _ & _ & _ & _ & Hml & _). rewrite Hml in He. clear Hml.
  destruct (builtFrom_facts _ _ _ _ _ _ _ UI Ep) as (_ & _ & HW).
  destruct HQ as [->|[_ HQ]]; [apply HW; exact He|]. unfold expandProcess in HQ. change (pr_ml (clearSites p)) with (pr_ml p) in HQ.
  destruct (pr_basis (clearSites p)) as [|b [|b' l]]; try (inversion HQ; subst q; apply HW; exact He).
  ob HQ as index Ei. ob HQ as cl Ecl. destruct (insertWildcards (lt_unit L) (pr_ml p) cl 0) as [l mapping] eqn:EI. ob HQ as idm Eid. inversion HQ; subst q. cbn [set_ml pr_ml] in He.
  pose proof (insert_padded (lt_unit L) cl (pr_ml p) 0) as HP. rewrite EI in HP. destruct (padded_In_inv _ _ _ _ _ HP e He) as [H|(c & Hc & ->)]; [apply HW; exact H|].
  assert (E : zlen (ce_types c) = zlen (cf_ptypes cf)); [|rewrite <- E; apply initWildcard_width].
  destruct (initMatchLists_fields _ _ _ _ (ri_init _ _ _ _ _ _ _ _ RI)) as (mls & n & Emls & _ & Ecf1). rewrite Ecf1 in Ecl. cbn [set_moved set_mlists cf_mlists] in Ecl.
  pose proof (omap_zlen _ _ _ Emls) as LM. rewrite zlen_zrange, (wi_types _ _ _ _ WI) in LM. pose proof (zget_range _ _ _ Ecl) as RI'.
  rewrite (omap_zget _ _ _ index Emls), zget_zrange in Ecl by (rewrite (wi_types _ _ _ _ WI); lia). cbn [obind] in Ecl. rewrite Z.add_0_l in Ecl.
  change (scratchML L (maxRange it) cf index = Some cl) in Ecl. pose proof (maxRange_pos it).
  destruct (scratchML_In L (maxRange it) cf index cl c (wi_lat _ _ _ _ WI) ltac:(lia) ltac:(lia) Ecl Hc) as (? & ? & _ & _ & _ & _ & Et & _).
  eapply std_width; [eapply user_std; exact UI|]. eapply zget_In; eauto.
Qed.

(** ** the environment of an event *)
Section Environment.
Context (ranks : Z) (hash : list Z -> Z) (L : lattice) (basis : list coord) (cf : config) (it : interactions) (spec : Z -> pspec) (md : model).
Context (UI : userInput ranks L cf it spec) (GI : geoInput L basis (maxRange it) (zlen (cf_ptypes cf)) cf) (HWild : in_wild it = true).
Context (HR : reachable ranks hash L cf it md) (i b : Z) (p p' : process) (Ep : zget (in_procs it) i = Some p) (Eb : pr_basis p = [b]).
Context (PL : placed L basis (pr_custom p) b (positions (spec i))) (Ep' : zget (in_procs (md_in md)) i = Some p').
Context (CC : coversCut L basis (maxRange it) (pr_cut2 p)) (x : Z) (Hx : 0 <= x < nsites L) (Hbx : basisSiteFromIndex L x = b).
Notation pt := (cf_ptypes cf).
Notation W := (zlen (cf_ptypes cf)).

Lemma env_widths : forall t, In t (cf_types (md_cf md)) -> zlen t = W.
Proof using UI HR.
  intros t Ht. destruct (reachable_info _ _ _ _ _ _ (ui_wf _ _ _ _ _ UI) HR) as (cf1 & it2 & RI). eapply reachable_widths; [exact RI| |exact Ht].
  intros u Hu. destruct (ui_cf _ _ _ _ _ UI) as (co & els & E). apply mkConfiguration_info in E. apply In_zget in Hu. destruct Hu as [k Ek].
  pose proof (omap_zget _ _ _ k (ci_types _ _ _ _ E)) as X. rewrite Ek in X. symmetry in X. ob X as e Ee. apply bucketOf_len in X. rewrite X.
  destruct (names_wf _ _ (ui_pt _ _ _ _ _ UI) (ci_names _ _ _ _ E)) as [N _]. rewrite N. pose proof (zlen_nonneg pt). lia.
Qed.
Lemma env_names : zlen (cf_names (md_cf md)) = W /\ forall s k, tfind pt s = Some k -> zget (cf_names (md_cf md)) k = Some s.
Proof using UI HR.
  destruct (reach_static _ _ _ _ _ _ HR) as (_ & -> & _). destruct (ui_cf _ _ _ _ _ UI) as (co & els & E). apply mkConfiguration_info in E.
  exact (names_wf _ _ (ui_pt _ _ _ _ _ UI) (ci_names _ _ _ _ E)).
Qed.

(** what is listed within the cutoff are the surroundings of x *)
Lemma within_surroundings cl env : zget (cf_mlists (md_cf md)) x = Some cl -> withinCutoff (pr_cut2 p) cl = Some env ->
  surroundings L (cf_coords (md_cf md)) (pr_cut2 p) x (map ce_index env) (map ce_c env).
Proof using All.
  intros Ecl Ew. pose proof (ui_wf _ _ _ _ _ UI) as WI. pose proof (wi_lat _ _ _ _ WI) as WF. pose proof (gi_basis _ _ _ _ _ GI) as WB.
  destruct (reachable_info _ _ _ _ _ _ WI HR) as (cf1 & it2 & RI).
  destruct (reachable_proc _ _ _ _ _ _ _ _ _ _ RI Ep') as (p2 & q & E2 & _ & Hs & HQ). assert (p2 = p) by congruence. subst p2.
  assert (F5 : pr_basis p' = pr_basis p).
  { apply pstatic_fields in Hs. destruct Hs as (_ & _ & _ & _ & _ & _ & _ & S8 & _). rewrite S8. destruct HQ as [->|[_ HQ]]; [reflexivity|]. apply expand_fields in HQ. apply HQ. }
  assert (HU : usedBy L (md_in md) x) by (exists i, p'; split; [exact Ep'|]; rewrite F5, Eb, Hbx; left; reflexivity).
  destruct (scratch_at _ _ _ _ _ _ _ _ _ WI RI Hx HU) as (cl0 & g & M1 & M2 & M3 & M4 & _). rewrite (gi_coords _ _ _ _ _ GI) in M2. assert (cl0 = cl) by congruence. subst cl0.
  assert (RG : regular L basis (maxRange it) W p) by (eapply user_regular; eauto).
  destruct (reachable_aligned _ _ _ _ _ _ _ _ _ _ _ _ _ _ _ _ WI GI HWild RI Ep RG Ep' Hx ltac:(rewrite Eb, Hbx; left; reflexivity) M2 M3) as (SG & m & AL & _).
  destruct (withinCutoff_prefix _ _ _ Ew) as (EP & _).
  assert (Hcl : forall e, In e cl -> ce_d2 e = cnorm2 (ce_c e) /\ siteAt L (generateLatticeSites L basis) x (ce_c e) (ce_index e) /\ inReach L basis (maxRange it) (basisSiteFromIndex L x) (ce_c e)).
  { intros e He. apply In_zget in He. destruct He as [j Ej]. destruct (geom_entry _ _ _ _ M3 Ej) as (e' & E' & X1 & X2 & X3). apply zget_In in E'.
    pose proof (sg_good _ _ _ _ _ SG) as HG. rewrite Forall_forall in HG. destruct (HG e' E') as [G1 G2]. split; [congruence|]. rewrite <- X1, <- X3. split; [apply SG; exact E'|exact G2]. }
  assert (HSc : csorted (map ce_c cl)) by (rewrite (geom_eq_c _ _ M3); apply SG).
  assert (Eix : map ce_index cl = map ce_index g).
  { assert (X : forall l l', geom l = geom l' -> map ce_index l = map ce_index l'); [|apply X; exact M3]. intros l l' E. unfold geom in E. apply (f_equal (map (fun t => fst (fst t)))) in E. rewrite !map_map in E. exact E. }
  assert (HND : NoDup (map ce_index cl)) by (rewrite Eix; apply SG).
  assert (HCo : cf_coords (md_cf md) = generateLatticeSites L basis) by (destruct (reach_static _ _ _ _ _ _ HR) as (-> & _ & _); apply GI).
  rewrite HCo. constructor.
  - rewrite !zlen_map. reflexivity.
  - apply zget_NoDup. intros j j' y Ej Ej'. rewrite zget_map in Ej. rewrite zget_map in Ej'. destruct (zget env j) as [e|] eqn:E1; [|discriminate]. destruct (zget env j') as [e'|] eqn:E1'; [|discriminate].
      cbn in Ej, Ej'. apply EP in E1, E1'. apply (NoDup_zget_inj _ j j' y HND); rewrite zget_map; [destruct E1 as [-> _]|destruct E1' as [-> _]]; cbn; congruence.
  - intros j y d Ej Ej'. rewrite zget_map in Ej. rewrite zget_map in Ej'. destruct (zget env j) as [e|] eqn:E1; [|discriminate]. cbn in Ej, Ej'. inversion Ej; inversion Ej'; subst. destruct (EP _ _ E1) as [E2' E3].
      destruct (Hcl e (zget_In _ _ _ E2')) as (D1 & D2 & D3). split; [exact D2|]. split; [|lia]. destruct D3 as (? & ? & ? & ? & ? & ? & _ & _ & _ & _ & _ & _ & D3). exact D3.
  - intros j k d e Hjk Ed Ee. rewrite zget_map in Ed. rewrite zget_map in Ee. destruct (zget env j) as [e1|] eqn:E1; [|discriminate]. destruct (zget env k) as [e1'|] eqn:E1'; [|discriminate]. cbn in Ed, Ee.
      apply EP in E1, E1'. eapply (csorted_norm _ HSc j k); [exact Hjk|rewrite zget_map; destruct E1 as [-> _]; exact Ed|rewrite zget_map; destruct E1' as [-> _]; exact Ee].
  - intros y d HA HSh Hd. pose proof (cut_reach L basis (maxRange it) x y d (pr_cut2 p) WF WB (gi_uniform _ _ _ _ _ GI) CC Hx HA HSh Hd) as HI.
      apply (sg_reach _ _ _ _ _ SG) in HI. rewrite <- (geom_eq_c _ _ M3) in HI. apply in_map_iff in HI. destruct HI as (e & Ed & He).
      destruct (Hcl e He) as (_ & D2 & _). rewrite Ed in D2. assert (y = ce_index e) by (eapply siteAt_unique; eauto). subst y. apply in_map.
      eapply withinCutoff_all; eauto; [intros e' He'; apply Hcl; exact He'|rewrite Ed; exact Hd].
Qed.

Record envData (rc : ratecalc) (r : Z) (env : list centry) (m : list Z) (tb : list string) (oc : list bucket) (af : list string) (up : list bucket) (g : coord) : Prop := {
  ed_su : surroundings L (cf_coords (md_cf md)) (pr_cut2 p) x (map ce_index env) (map ce_c env);
  ed_tb : omap (fun e => els <- zget (cf_elements (md_cf md)) (ce_index e) ;; zget els 0) env = Some tb;
  ed_oc : omap (fun e => zget (cf_types (md_cf md)) (ce_index e)) env = Some oc;
  ed_al : alignedAt (pr_ml p) (pr_ml p') m env;
  ed_pos : forall e e', In e env -> In e' env -> ce_c e = ce_c e' -> e = e';
  ed_af : exists z, afterFx (md_cf md) (pr_ml p') 0 (tb, repeat z (length env)) (af, up) /\ z = repeat 0 (length (pt));
  ed_g : zget (cf_coords (md_cf md)) x = Some g;
  ed_r : r = if pr_bucket p then rc_bucket rc (map ce_c env) oc up (cf_names (md_cf md)) (pr_rate p) (pr_number p) g
             else rc_plain rc (map ce_c env) tb af (pr_rate p) (pr_number p) g }.

Lemma environment_data rc r : updateSingleRate (md_cf md) rc p' x = Some r -> exists env m tb oc af up g, envData rc r env m tb oc af up g.
Proof using All.
  intros H. pose proof (ui_wf _ _ _ _ _ UI) as WI. pose proof (wi_lat _ _ _ _ WI) as WF. pose proof (gi_basis _ _ _ _ _ GI) as WB.
  destruct (reachable_info _ _ _ _ _ _ WI HR) as (cf1 & it2 & RI).
  destruct (reachable_proc _ _ _ _ _ _ _ _ _ _ RI Ep') as (p2 & q & E2 & _ & Hs & HQ). assert (p2 = p) by congruence. subst p2.
  assert (HF : pr_cut2 p' = pr_cut2 p /\ pr_bucket p' = pr_bucket p /\ pr_rate p' = pr_rate p /\ pr_number p' = pr_number p /\ pr_basis p' = pr_basis p).
  { apply pstatic_fields in Hs. destruct Hs as (_ & _ & S3 & _ & S5 & S6 & _ & S8 & _ & S10 & _). rewrite S3, S5, S6, S8, S10.
    destruct HQ as [->|[_ HQ]]; [auto 10|]. apply expand_fields in HQ. destruct HQ as (_ & _ & -> & _ & -> & -> & _ & _ & _ & _ & _ & -> & -> & _). auto 10. }
  destruct HF as (F1 & F2 & F3 & F4 & F5).
  assert (HU : usedBy L (md_in md) x) by (exists i, p'; split; [exact Ep'|]; rewrite F5, Eb, Hbx; left; reflexivity).
  destruct (scratch_at _ _ _ _ _ _ _ _ _ WI RI Hx HU) as (cl & g & M1 & M2 & M3 & M4 & _). rewrite (gi_coords _ _ _ _ _ GI) in M2.
  assert (RG : regular L basis (maxRange it) W p) by (eapply user_regular; eauto).
  destruct (reachable_aligned _ _ _ _ _ _ _ _ _ _ _ _ _ _ _ _ WI GI HWild RI Ep RG Ep' Hx ltac:(rewrite Eb, Hbx; left; reflexivity) M2 M3) as (SG & m & AL & _).
  unfold updateSingleRate in H. rewrite M1 in H. cbn [obind] in H. ob H as env Ew. ob H as tb Etb. ob H as oc Eoc. ob H as o0 Eo0. ob H as ra Era. ob H as gc Egc.
  destruct ra as [af up]. cbn [fst snd] in H. exists env, m, tb, oc, af, up, gc. rewrite F1 in Ew.
  destruct (withinCutoff_prefix _ _ _ Ew) as (EP & _).
  assert (Hcl : forall e, In e cl -> ce_d2 e = cnorm2 (ce_c e) /\ siteAt L (generateLatticeSites L basis) x (ce_c e) (ce_index e) /\ inReach L basis (maxRange it) (basisSiteFromIndex L x) (ce_c e)).
  { intros e He. apply In_zget in He. destruct He as [j Ej]. destruct (geom_entry _ _ _ _ M3 Ej) as (e' & E' & X1 & X2 & X3). apply zget_In in E'.
    pose proof (sg_good _ _ _ _ _ SG) as HG. rewrite Forall_forall in HG. destruct (HG e' E') as [G1 G2]. split; [congruence|]. rewrite <- X1, <- X3. split; [apply SG; exact E'|exact G2]. }
  assert (HSc : csorted (map ce_c cl)) by (rewrite (geom_eq_c _ _ M3); apply SG).
  assert (Eix : map ce_index cl = map ce_index g).
  { assert (X : forall l l', geom l = geom l' -> map ce_index l = map ce_index l'); [|apply X; exact M3]. intros l l' E. unfold geom in E. apply (f_equal (map (fun t => fst (fst t)))) in E. rewrite !map_map in E. exact E. }
  assert (HND : NoDup (map ce_index cl)) by (rewrite Eix; apply SG).
  assert (HNC : NoDup (map ce_c cl)).
  { clear -HSc. unfold csorted in HSc. induction HSc as [|a l HS IH HF]; constructor; [|exact IH]. intros Hin. rewrite Forall_forall in HF. specialize (HF a Hin). rewrite clt_irrefl in HF. discriminate. }
  assert (HCo : cf_coords (md_cf md) = generateLatticeSites L basis) by (destruct (reach_static _ _ _ _ _ _ HR) as (-> & _ & _); apply GI).
  assert (Hinj : forall {A} (f : centry -> A) e e', NoDup (map f cl) -> In e env -> In e' env -> f e = f e' -> e = e').
  { intros A f e e' ND He He' E. apply In_zget in He, He'. destruct He as [j Ej], He' as [j' Ej']. apply EP in Ej, Ej'. destruct Ej as [Ej _], Ej' as [Ej' _].
    assert (j = j'); [|subst; congruence]. apply (NoDup_zget_inj _ j j' (f e) ND); rewrite zget_map; [rewrite Ej|rewrite Ej', E]; reflexivity. }
  assert (LT : zlen o0 = W).
  { apply env_widths. pose proof (omap_zget _ _ _ 0 Eoc) as X. rewrite Eo0 in X. symmetry in X. ob X as e0 Ee0. eapply zget_In; eauto. }
  rewrite <- (Z.add_0_l (zlen (pr_ml p') - 1)), Z.add_sub_assoc in Era. apply afterFold_fx in Era.
  constructor; auto.
  - eapply within_surroundings; eauto.
  - constructor.
    + destruct (pr_ml p') as [|e0 l0]; [cbn; lia|]. destruct (af_fit _ _ _ _ _ Era ltac:(discriminate)) as [_ X]. cbn [snd] in X. unfold zlen in X. rewrite repeat_length in X. lia.
    + intros j e c Ee Ec. destruct (EP _ _ Ec) as [Ec' _]. exact (al_entry _ _ _ _ AL j e c Ee Ec').
    + intros j e Ee. destruct (al_orig _ _ _ _ AL j e Ee) as (k & c & A1 & A2 & A3 & A4). exists k, c. split; [exact A1|]. split; [exact A2|]. split; [|exact A4].
      destruct (zget_lt env k) as [c' Ec'].
      { apply zget_range in A2. destruct (pr_ml p') as [|e0 l0]; [change (zlen (@nil pentry)) with 0 in A2; lia|]. destruct (af_fit _ _ _ _ _ Era ltac:(discriminate)) as [_ X]. cbn [snd] in X. unfold zlen in X at 2. rewrite repeat_length in X. unfold zlen in *. lia. }
      destruct (EP _ _ Ec') as [X _]. congruence.
    + apply AL.
  - intros e e' He He' E. eapply (Hinj _ ce_c); eauto.
  - eexists. split; [exact Era|]. f_equal. unfold zlen in LT. lia.
  - rewrite F2, F3, F4 in H. destruct (pr_bucket p); inversion H; reflexivity.
Qed.

(** in the words of the user *)
Lemma env_at rc r env m tb oc af up g j c e : envData rc r env m tb oc af up g -> zget env j = Some c -> In e (pr_ml p) -> pe_c e = ce_c c -> zget (pr_ml p') j = Some e.
Proof using All.
  intros ED Ec He Hc. apply In_zget in He. destruct He as [k Ek]. destruct (al_orig _ _ _ _ (ed_al _ _ _ _ _ _ _ _ _ ED) k e Ek) as (j' & c' & _ & A2 & A3 & A4).
  assert (j' = j); [|subst; exact A2]. assert (c' = c) by (eapply (ed_pos _ _ _ _ _ _ _ _ _ ED); [eapply zget_In; eauto|eapply zget_In; eauto|congruence]). subst c'.
  apply (NoDup_zget_inj _ j' j (ce_index c) (su_nodup _ _ _ _ _ _ (ed_su _ _ _ _ _ _ _ _ _ ED))); rewrite zget_map; [rewrite A3|rewrite Ec]; reflexivity.
Qed.
Lemma env_plain rc r env m tb oc af up g rows : envData rc r env m tb oc af up g -> spec i = Plain rows ->
  toldPlain (md_cf md) rows (map ce_index env) (map ce_c env) tb af /\ r = rc_plain rc (map ce_c env) tb af (pr_rate p) (pr_number p) g.
Proof using All.
  intros ED Sp. pose proof (ui_procs _ _ _ _ _ UI i p Ep) as B. pose proof (ui_pt _ _ _ _ _ UI) as WP. destruct env_names as [NL NM]. rewrite Sp in B. cbn [builtFrom] in B. destruct B as [WR [bs B]].
  destruct (builtPlain_spec _ _ _ _ _ WP B) as [es PO]. destruct (ed_af _ _ _ _ _ _ _ _ _ ED) as (z & AF & _).
  pose proof (ed_r _ _ _ _ _ _ _ _ _ ED) as Hr. rewrite (po_bucket _ _ _ _ _ _ PO) in Hr. split; [|exact Hr].
  pose proof (omap_zlen _ _ _ (ed_tb _ _ _ _ _ _ _ _ _ ED)) as LT. destruct (af_len _ _ _ _ _ AF) as [LA _]. cbn [fst] in LA.
  constructor.
  - rewrite zlen_map. split; congruence.
  - intros j y s Ey Es. rewrite (omap_zget _ _ _ j (ed_tb _ _ _ _ _ _ _ _ _ ED)) in Es. rewrite zget_map in Ey. destruct (zget env j) as [c|]; [|discriminate]. cbn [obind option_map] in *. inversion Ey; subst y.
    ob Es as els Eels. destruct els as [|s' more]; [rewrite zget_nil in Es; discriminate|]. inversion Es; subst s'. exists more. exact Eels.
  - intros j d rw Ed Hr' Hc Hne. rewrite zget_map in Ed. destruct (zget env j) as [c|] eqn:Ec; [|discriminate]. cbn in Ed. inversion Ed; subst d.
    destruct (In_zget _ _ Hr') as [k Ek]. destruct (row_ml _ _ _ _ _ _ PO k rw Ek) as (k' & e & Ee & _ & EF).
    assert (Ej : zget (pr_ml p') j = Some e) by (eapply env_at; eauto; [eapply zget_In; eauto|rewrite (en_c _ _ _ EF); exact H0 || congruence]).
    destruct (en_kinds _ _ _ EF) as (kb & ka & K1 & K2 & _ & UL & UU). pose proof (tfind_range _ _ _ WP K1) as Rb. pose proof (tfind_range _ _ _ WP K2) as Ra.
    assert (kb <> ka) by (intros ->; apply Hne; eapply tfind_inj; eauto).
    assert (Ua : zget (pe_upd e) ka = Some 1).
    { destruct (zget_lt (pe_upd e) ka) as [a Ea]; [unfold bucket in *; lia|]. rewrite Ea. rewrite (UU _ _ Ea). destruct (Z.eqb_spec ka ka), (Z.eqb_spec ka kb); try congruence; reflexivity. }
    assert (Ub : zget (pe_upd e) kb = Some (-1)).
    { destruct (zget_lt (pe_upd e) kb) as [a Ea]; [unfold bucket in *; lia|]. rewrite Ea. rewrite (UU _ _ Ea). destruct (Z.eqb_spec kb kb), (Z.eqb_spec kb ka); try congruence; reflexivity. }
    destruct (af_typ _ _ _ _ _ AF j e Ej) as [[[X|[X|X]] _]|(t & s & _ & _ & X1 & X2 & X3)].
    + exfalso. pose proof (proj1 (zsum_abs_zero _) X _ _ Ua). discriminate.
    + exfalso. unfold beqi in X. destruct (zlen (pe_upd e) <=? 0); [discriminate|]. inversion X as [X']. apply list_eqb_eq in X'. rewrite X' in Ub. rewrite zget_map in Ub.
      destruct (zget (zrange 0 (zlen (pe_upd e) - 1)) kb) as [v|]; [|discriminate]. cbn in Ub. destruct (v =? 0); discriminate.
    + exfalso. exact (firstOne_some _ _ _ Ua X).
    + rewrite Z.add_0_l in X3. cbn [fst] in X3. rewrite X3. f_equal. destruct (firstOne_spec _ _ _ X1) as [X4 _]. rewrite Z.sub_0_r in X4. pose proof (UU _ _ X4) as X5.
      assert (t = ka) by (destruct (Z.eqb_spec t ka); [assumption|]; destruct (t =? kb); discriminate). subst t. rewrite (NM _ _ K2) in X2. congruence.
  - intros j d Ed Hno. rewrite zget_map in Ed. destruct (zget env j) as [c|] eqn:Ec; [|discriminate]. cbn in Ed. inversion Ed; subst d. apply zget_range in Ec as Rj.
    destruct (Z_lt_le_dec j (zlen (pr_ml p'))) as [Hlt|Hge]; [|apply (af_typo _ _ _ _ _ AF); lia].
    destruct (zget_lt (pr_ml p') j) as [e Ee]; [lia|].
    assert (Z0 : zsum (map Z.abs (pe_upd e)) = 0).
    { apply zsum_abs_zero. destruct (al_entry _ _ _ _ (ed_al _ _ _ _ _ _ _ _ _ ED) j e c Ee Ec) as [[He Hc]|(c0 & -> & _)].
      - destruct (In_zget _ _ He) as [k Ek]. destruct (ml_row _ _ _ _ _ _ PO k e Ek) as (k' & rw & Er & _ & EF). pose proof (Hno rw (zget_In _ _ _ Er) ltac:(rewrite <- (en_c _ _ _ EF); exact Hc)) as Hba.
        destruct (en_kinds _ _ _ EF) as (kb & ka & K1 & K2 & _ & _ & UU). rewrite Hba in K1. assert (kb = ka) by congruence. subst kb. intros t a Ea. rewrite (UU _ _ Ea). lia.
      - rewrite upd_init. intros t a Ea. rewrite zget_map in Ea. destruct (zget (ce_types c0) t); [|discriminate]. cbn in Ea. congruence. }
    destruct (af_typ _ _ _ _ _ AF j e Ee) as [[_ X]|(t & s & X & _)]; [exact X|congruence].
Qed.
Lemma env_bucket rc r env m tb oc af up g rows : envData rc r env m tb oc af up g -> spec i = Bucket rows ->
  exists before after, callbackBuckets oc up (cf_names (md_cf md)) = Some (before, after) /\
    toldBucket (md_cf md) rows (map ce_index env) (map ce_c env) before after /\ r = rc_bucket rc (map ce_c env) oc up (cf_names (md_cf md)) (pr_rate p) (pr_number p) g.
Proof using All.
  intros ED Sp. pose proof (ui_procs _ _ _ _ _ UI i p Ep) as B. pose proof (ui_pt _ _ _ _ _ UI) as WP. destruct env_names as [NL NM]. rewrite Sp in B. cbn [builtFrom] in B. destruct B as [WR [bs B]].
  destruct (builtBucket_spec _ _ _ _ _ WP WR B) as [es BO]. destruct (ed_af _ _ _ _ _ _ _ _ _ ED) as (z & AF & Ez).
  pose proof (ed_r _ _ _ _ _ _ _ _ _ ED) as Hr. rewrite (bo_bucket _ _ _ _ _ _ BO) in Hr.
  assert (HPT : cf_ptypes (md_cf md) = pt) by (destruct (reach_static _ _ _ _ _ _ HR) as (_ & _ & ->); reflexivity).
  pose proof (omap_zlen _ _ _ (ed_oc _ _ _ _ _ _ _ _ _ ED)) as LO. destruct (af_len _ _ _ _ _ AF) as [_ LU]. cbn [snd] in LU. unfold zlen in LU at 2. rewrite repeat_length in LU. fold (zlen env) in LU. change (Z.of_nat (length env)) with (zlen env) in LU.
  assert (OW : forall j o, zget oc j = Some o -> zlen o = W /\ exists c, zget env j = Some c /\ zget (cf_types (md_cf md)) (ce_index c) = Some o).
  { intros j o Eo. rewrite (omap_zget _ _ _ j (ed_oc _ _ _ _ _ _ _ _ _ ED)) in Eo. ob Eo as c Ec. split; [apply env_widths; eapply zget_In; eauto|exists c; auto]. }
  assert (UW : forall j u c, zget up j = Some u -> zget env j = Some c -> zlen u = W /\
      (forall r, In r rows -> br_c r = ce_c c -> forall s k, tfind pt s = Some k -> zget u k = Some (change (br_upd r) s)) /\
      ((forall r, In r rows -> br_c r <> ce_c c) -> forall k a, zget u k = Some a -> a = 0)).
  { intros j u c Eu Ec. pose proof (zget_range _ _ _ Ec) as Rj.
    assert (Hrow : forall rw, In rw rows -> br_c rw = ce_c c -> exists e, zget (pr_ml p') j = Some e /\ entryForB pt rw e).
    { intros rw Hrw Hc. destruct (In_zget _ _ Hrw) as [k Ek]. destruct (bo_rows _ _ _ _ _ _ BO k rw Ek) as (e & Ee & EF). exists e. split; [|exact EF].
      eapply env_at; eauto; [|rewrite (eb_c _ _ _ EF); exact Hc]. rewrite (bo_ml _ _ _ _ _ _ BO). apply isort_In. eapply zget_In; eauto. }
    destruct (Z_lt_le_dec j (zlen (pr_ml p'))) as [Hlt|Hge].
    - destruct (zget_lt (pr_ml p') j) as [e Ee]; [lia|]. pose proof (af_upd _ _ _ _ _ AF j e Ee) as X. rewrite Z.add_0_l in X. cbn [snd] in X. assert (u = pe_upd e) by congruence. subst u.
      split; [eapply reach_entry_width; eauto; eapply zget_In; eauto|]. split.
      + intros rw Hrw Hc s k Ek. destruct (Hrow rw Hrw Hc) as (e' & Ee' & EF). assert (e' = e) by congruence. subst e'. apply EF. exact Ek.
      + intros Hno. destruct (al_entry _ _ _ _ (ed_al _ _ _ _ _ _ _ _ _ ED) j e c Ee Ec) as [[He Hc]|(c0 & -> & _)].
        * destruct (bml_row _ _ _ _ _ _ BO e He) as (rw & Hrw & EF). exfalso. apply (Hno rw Hrw). rewrite <- (eb_c _ _ _ EF). exact Hc.
        * rewrite upd_init. intros t a Ea. rewrite zget_map in Ea. destruct (zget (ce_types c0) t); [|discriminate]. cbn in Ea. congruence.
    - pose proof (af_updo _ _ _ _ _ AF j ltac:(lia)) as X. cbn [snd] in X. rewrite X in Eu. rewrite zget_repeat in Eu by (unfold zlen in Rj; lia). inversion Eu; subst u. subst z.
      split; [unfold zlen; rewrite repeat_length; reflexivity|]. split.
      + intros rw Hrw Hc. exfalso. destruct (Hrow rw Hrw Hc) as (e & Ee & _). apply zget_range in Ee. lia.
      + intros _ k a Ea. apply zget_In, repeat_spec in Ea. exact Ea. }
  assert (HA : exists af', omap (fun k => o <- zget oc k ;; u <- zget up k ;; bucketAdd o u) (zrange 0 (zlen up - 1)) = Some af').
  { apply omap_total. intros k Hk. apply In_zrange in Hk. destruct (zget_lt oc k) as [o Eo]; [lia|]. destruct (zget_lt up k) as [u Eu]; [lia|]. rewrite Eo, Eu. cbn [obind].
    destruct (OW k o Eo) as (Wo & c & Ec & _). destruct (UW k u c Eu Ec) as (Wu & _). destruct (bucketAdd_get o u) as (t & Et & _); [congruence|]. eauto. }
  destruct HA as [af' HA]. pose proof (omap_zlen _ _ _ HA) as LA. rewrite zlen_zrange in LA. pose proof (zlen_nonneg up) as HN.
  assert (HG : forall j t, zget af' j = Some t -> exists o u c, zget oc j = Some o /\ zget up j = Some u /\ zget env j = Some c /\ zget (cf_types (md_cf md)) (ce_index c) = Some o /\ zlen t = W /\
      forall k a b, zget o k = Some a -> zget u k = Some b -> zget t k = Some (a + b)).
  { intros j t Et. pose proof (zget_range _ _ _ Et) as Rj. rewrite (omap_zget _ _ _ j HA), zget_zrange in Et by lia. cbn [obind] in Et. rewrite Z.add_0_l in Et. ob Et as o Eo. ob Et as u Eu.
    destruct (OW j o Eo) as (Wo & c & Ec & Et'). destruct (UW j u c Eu Ec) as (Wu & _). destruct (bucketAdd_get o u) as (t' & Et2 & L2 & G2); [congruence|]. assert (t' = t) by congruence. subst t'. exists o, u, c. rewrite L2. auto 10. }
  assert (HB : exists b1, bucketsToPython (cf_names (md_cf md)) oc = Some b1).
  { apply omap_total. intros o Ho. apply In_zget in Ho. destruct Ho as [k Eo]. destruct (OW k o Eo) as (Wo & _). destruct (siteToPython (cf_names (md_cf md)) o) eqn:E; [eauto|]. apply siteToPython_total in E; [destruct E|lia]. }
  assert (HB' : exists a1, bucketsToPython (cf_names (md_cf md)) af' = Some a1).
  { apply omap_total. intros o Ho. apply In_zget in Ho. destruct Ho as [k Eo]. destruct (HG k o Eo) as (? & ? & ? & _ & _ & _ & _ & Wo & _). destruct (siteToPython (cf_names (md_cf md)) o) eqn:E; [eauto|]. apply siteToPython_total in E; [destruct E|lia]. }
  destruct HB as [b1 HB], HB' as [a1 HB']. exists b1, a1. split; [unfold callbackBuckets; rewrite HA; cbn [obind]; rewrite HB; cbn [obind]; rewrite HB'; reflexivity|]. split; [|exact Hr].
  pose proof (omap_zlen _ _ _ HB) as L1. pose proof (omap_zlen _ _ _ HB') as L2.
  assert (BG : forall j l, zget b1 j = Some l -> exists o, zget oc j = Some o /\ siteToPython (cf_names (md_cf md)) o = Some l).
  { intros j l El. unfold bucketsToPython in HB. rewrite (omap_zget _ _ _ j HB) in El. ob El as o Eo. eauto. }
  assert (AG : forall j l, zget a1 j = Some l -> exists t, zget af' j = Some t /\ siteToPython (cf_names (md_cf md)) t = Some l).
  { intros j l El. unfold bucketsToPython in HB'. rewrite (omap_zget _ _ _ j HB') in El. ob El as o Eo. eauto. }
  constructor.
  - rewrite zlen_map. split; lia.
  - intros j y l n s Ey El. rewrite zget_map in Ey. destruct (BG j l El) as (o & Eo & Es). destruct (OW j o Eo) as (Wo & c & Ec & Et). rewrite Ec in Ey. cbn in Ey. inversion Ey; subst y.
    rewrite (siteToPython_In pt _ _ _ WP NL NM Wo Es). unfold amount. rewrite HPT. split; intros (A & B' & k & Hk).
    + destruct Hk as [K1 K2]. split; [exact A|]. split; [exact B'|]. exists k, o. auto.
    + destruct Hk as (t & K1 & K2 & K3). split; [exact A|]. split; [exact B'|]. exists k. split; [exact K1|]. congruence.
  - intros j y d l rw n s Ey Ed El Hrw Hc. rewrite zget_map in Ey. rewrite zget_map in Ed. destruct (AG j l El) as (t & Et & Es). destruct (HG j t Et) as (o & u & c & Eo & Eu & Ec & Eto & Wt & GA).
    rewrite Ec in Ey, Ed. cbn in Ey, Ed. inversion Ey; inversion Ed; subst y d. destruct (UW j u c Eu Ec) as (Wu & UR & _). specialize (UR rw Hrw ltac:(congruence)).
    destruct (OW j o Eo) as (Wo & _). rewrite (siteToPython_In pt _ _ _ WP NL NM Wt Es). unfold amount. rewrite HPT. split.
    + intros (A & B' & k & K1 & K2). split; [exact A|]. split; [exact B'|]. pose proof (tfind_range _ _ _ WP K1) as Rk. destruct (zget_lt o k) as [a Ea]; [lia|].
      rewrite (GA _ _ _ Ea (UR _ _ K1)) in K2. exists a. split; [exists k, o; auto|congruence].
    + intros (A & B' & a & (k & o' & K1 & K2 & K3) & ->). split; [exact A|]. split; [exact B'|]. exists k. split; [exact K1|]. assert (o' = o) by congruence. subst o'. apply GA; [exact K3|]. apply UR. exact K1.
  - intros j d Ed Hno. rewrite zget_map in Ed. destruct (zget env j) as [c|] eqn:Ec; [|discriminate]. cbn in Ed. inversion Ed; subst d. pose proof (zget_range _ _ _ Ec) as Rj.
    destruct (zget_lt a1 j) as [la Ela]; [lia|]. destruct (zget_lt b1 j) as [lb Elb]; [lia|]. rewrite Ela, Elb. destruct (AG j la Ela) as (t & Et & Es). destruct (BG j lb Elb) as (o & Eo & Es').
    destruct (HG j t Et) as (o' & u & c' & Eo' & Eu & Ec' & Eto & Wt & GA). assert (o' = o) by congruence. subst o'. assert (c' = c) by congruence. subst c'.
    destruct (UW j u c Eu Ec) as (Wu & _ & UZ). specialize (UZ Hno). destruct (OW j o Eo) as (Wo & _).
    assert (t = o); [|congruence]. apply PBase.zget_ext. intros k. destruct (zget o k) as [a|] eqn:Ea.
    + destruct (zget_lt u k) as [v Ev]; [apply zget_range in Ea; lia|]. rewrite (GA _ _ _ Ea Ev), (UZ _ _ Ev). f_equal. lia.
    + apply zget_None in Ea. apply zget_None. lia.
  - intros j l [El|El].
    + destruct (BG j l El) as (o & Eo & Es). destruct (OW j o Eo) as (Wo & _). exact (siteToPython_nodup pt _ _ _ WP NL NM Wo Es).
    + destruct (AG j l El) as (t & Et & Es). destruct (HG j t Et) as (_ & _ & _ & _ & _ & _ & _ & Wt & _). exact (siteToPython_nodup pt _ _ _ WP NL NM Wt Es).
Qed.
End Environment.
