(** C11, C12: multiplicities of bucket events. *)
From Verif Require Import PBase SMult SGeo PLattice PProcess PMatcher PPerform PStep PGeo PPossible PRun PEffect PRematch PMult XCheck XSystems.
Open Scope Z_scope.
Open Scope list_scope.

(** a product over [0, m) in which only the factors at pos 0 < pos 1 < ... differ from 1 *)
Definition prodUpto (f : Z -> Z) (n : nat) : Z := zprod (map f (zseq 0 n)).
Lemma zseq_app n : forall lo m, zseq lo (n + m) = zseq lo n ++ zseq (lo + Z.of_nat n) m.
Proof. induction n as [|n IH]; intros lo m; [rewrite Z.add_0_r; reflexivity|]. cbn [Nat.add zseq app]. rewrite IH. replace (lo + Z.of_nat (S n)) with (lo + 1 + Z.of_nat n) by lia. reflexivity. Qed.
Lemma prodUpto_app f n m : prodUpto f (n + m) = prodUpto f n * zprod (map f (zseq (Z.of_nat n) m)).
Proof. unfold prodUpto. rewrite zseq_app, map_app, zprod_app. reflexivity. Qed.
Lemma prod_pos f pos n : forall m, (forall j, 0 <= j < Z.of_nat n -> 0 <= pos j < Z.of_nat m) ->
  (forall j k, 0 <= j < k -> k < Z.of_nat n -> pos j < pos k) ->
  (forall k, 0 <= k < Z.of_nat m -> (forall j, 0 <= j < Z.of_nat n -> pos j <> k) -> f k = 1) ->
  prodUpto f m = prodUpto (fun j => f (pos j)) n.
Proof.
  induction n as [|n IH]; intros m HR HI H1.
  - unfold prodUpto at 2. cbn [zseq map zprod]. unfold prodUpto. apply zprod_one. intros a Ha. apply in_map_iff in Ha. destruct Ha as (k & <- & Hk).
    apply In_zseq in Hk. apply H1; [lia|]. intros j Hj. lia.
  - set (q := pos (Z.of_nat n)). assert (Hq : 0 <= q < Z.of_nat m) by (apply HR; lia).
    replace m with (Z.to_nat q + S (m - Z.to_nat q - 1))%nat by lia. rewrite prodUpto_app. replace (S n) with (n + 1)%nat by lia. rewrite prodUpto_app.
    rewrite (IH (Z.to_nat q)).
    + f_equal. cbn [zseq map zprod]. rewrite (zprod_one (map f _)).
      * rewrite Z2Nat.id by lia. unfold q. ring.
      * intros a Ha. apply in_map_iff in Ha. destruct Ha as (k & <- & Hk). apply In_zseq in Hk. apply H1; [lia|]. intros j Hj E.
        destruct (Z.eq_dec j (Z.of_nat n)) as [->|Hn]; [fold q in E; lia|]. pose proof (HI j (Z.of_nat n) ltac:(lia) ltac:(lia)). fold q in H. lia.
    + intros j Hj. pose proof (HI j (Z.of_nat n) ltac:(lia) ltac:(lia)). fold q in H. pose proof (HR j ltac:(lia)). lia.
    + intros j k H2 H3. apply HI; lia.
    + intros k Hk Hj. apply H1; [lia|]. intros j Hj2. destruct (Z.eq_dec j (Z.of_nat n)) as [->|Hn]; [fold q; lia|]. apply Hj. lia.
Qed.

Definition factorAt (l : list pentry) (cl : list centry) (k : Z) : Z :=
  match zget l k, zget cl k with
  | Some e, Some c => match zget (pe_match e) 0 with Some 0 => ways (pe_match e) (ce_types c) | _ => 1 end
  | _, _ => 1
  end.
Lemma eventWays_prod l : forall cl, zlen l <= zlen cl -> eventWays l cl = prodUpto (factorAt l cl) (length l).
Proof.
  assert (G : forall l cl lo, zlen l <= zlen cl -> eventWays l cl = zprod (map (fun k => factorAt l cl (k - lo)) (zseq lo (length l)))).
  { induction l0 as [|e l0 IH]; intros cl lo HL; [destruct cl; reflexivity|].
    destruct cl as [|c cl]; [rewrite zlen_cons in HL; change (zlen (@nil centry)) with 0 in HL; pose proof (zlen_nonneg l0); lia|].
    rewrite !zlen_cons in HL. cbn [length zseq map zprod].
    assert (EW : eventWays (e :: l0) (c :: cl) = match zget (pe_match e) 0 with Some 0 => ways (pe_match e) (ce_types c) | _ => 1 end * eventWays l0 cl) by reflexivity.
    rewrite EW. f_equal; [unfold factorAt; rewrite Z.sub_diag, !zget_cons; reflexivity|].
    rewrite (IH cl (lo + 1)) by lia. f_equal. apply map_ext_in. intros k Hk. apply In_zseq in Hk. unfold factorAt. rewrite !zget_cons.
    destruct (Z.eqb_spec (k - lo) 0); [lia|]. replace (k - lo - 1) with (k - (lo + 1)) by lia. reflexivity. }
  intros cl HL. rewrite (G l cl 0 HL). unfold prodUpto. f_equal. apply map_ext. intros k. rewrite Z.sub_0_r. reflexivity.
Qed.

(** For every listed event of a process p of the input (whose entries ask for no or one wildcard): the multiplicity the
    matching code computes is the product, over the entries of p that are no wildcards, of the numbers of ways to
    choose the required particles among those present at the site of the entry.  It is at least one, and one when
    no site holds more than one particle of a type. *)
Theorem C12_multiplicity ranks hash L cf it md i p p' x cl :
  wfInput ranks L cf it -> (forall t, In t (cf_types cf) -> t <> []) -> reachable ranks hash L cf it md ->
  zget (in_procs it) i = Some p -> (forall e, In e (pr_ml p) -> zget (pe_match e) 0 = Some 0 \/ zget (pe_match e) 0 = Some 1) ->
  zget (in_procs (md_in md)) i = Some p' -> zget (cf_mlists (md_cf md)) x = Some cl -> listed md i x ->
  exists ys m, multiplicity (pr_ml p') cl = Some m /\ 1 <= m /\
    zlen ys = zlen (pr_ml p) /\
    (forall j e y, zget (pr_ml p) j = Some e -> zget ys j = Some y -> wildEntry e \/ suits L (md_cf md) x e y) /\
    m = zprod (map (entryWays (cf_types (md_cf md))) (combine (pr_ml p) ys)) /\
    ((forall y t n, In y ys -> forall k, zget (cf_types (md_cf md)) y = Some t -> zget t k = Some n -> n <= 1) -> m = 1).
Proof.
  intros WI HT HR Ep H01 Ep' Ecl HL. destruct (reachable_info _ _ _ _ _ _ WI HR) as (cf1 & it2 & RI).
  destruct (reachable_padded _ _ _ _ _ _ _ _ _ WI HR HT Ep Ep') as (pos & HP & _).
  pose proof (ri_inv _ _ _ _ _ _ _ _ RI) as IV. pose proof (ri_lat _ _ _ _ _ _ _ _ RI) as EL.
  destruct HL as (r & HE). destruct (iv_evt _ IV _ _ _ HE) as [Hx HPI]. rewrite EL in Hx, HPI.
  assert (HM : matchAt (lt_unit L) (md_in md) (md_cf md) i x).
  { rewrite <- EL. apply (iv_listed _ IV); [rewrite EL; exact Hx|rewrite EL; exact HPI|eauto]. }
  destruct HM as (p2 & cl2 & E1 & E2 & HM). assert (p2 = p') by congruence. assert (cl2 = cl) by congruence. subst p2 cl2.
  assert (HU : usedBy L (md_in md) x) by (exists i; exact HPI).
  destruct (scratch_at _ _ _ _ _ _ _ _ _ WI RI Hx HU) as (cl' & g & M1 & M2 & M3 & M4 & M5). assert (cl' = cl) by congruence. subst cl'.
  pose proof HM as HM'. apply (proj1 (padded_match _ pos _ _ _ HP)) in HM'. destruct HM' as [HLen HM'].
  destruct HP as (P1 & P2 & P3).
  assert (H01' : forall e, In e (pr_ml p') -> zget (pe_match e) 0 = Some 0 \/ wildEntry e).
  { intros e He. apply In_zget in He. destruct He as [k Ek]. destruct (P3 k e Ek) as [(j & Hj & <-)|[W _]]; [|right; exact W].
    destruct (zget_lt _ _ Hj) as [e0 E0]. pose proof (P1 j e0 E0) as E3. assert (e0 = e) by congruence. subst e0. apply (H01 e). eapply zget_In; eauto. }
  assert (HML : match_loop (lt_unit L) (pr_ml p') cl = Some true).
  { unfold whateverMatch in HM. destruct (Z.ltb_spec (zlen cl) (zlen (pr_ml p'))); [discriminate|exact HM]. }
  assert (Hpos : forall j, 0 <= j < zlen (pr_ml p) -> exists e c, zget (pr_ml p) j = Some e /\ zget (pr_ml p') (pos j) = Some e /\ zget cl (pos j) = Some c).
  { intros j Hj. destruct (zget_lt _ _ Hj) as [e Ee]. pose proof (P1 j e Ee) as E3. pose proof (zget_range _ _ _ E3).
    destruct (zget_lt cl (pos j)) as [c Ec]; [lia|]. eauto. }
  set (ys := map (fun j => match zget cl (pos j) with Some c => ce_index c | None => 0 end) (zrange 0 (zlen (pr_ml p) - 1))).
  assert (Lys : zlen ys = zlen (pr_ml p)) by (unfold ys; rewrite zlen_map, zlen_zrange; pose proof (zlen_nonneg (pr_ml p)); lia).
  assert (Eys : forall j, 0 <= j < zlen (pr_ml p) -> exists c, zget cl (pos j) = Some c /\ zget ys j = Some (ce_index c)).
  { intros j Hj. destruct (Hpos j Hj) as (e & c & _ & _ & Ec). exists c. split; [exact Ec|]. unfold ys. rewrite zget_map, zget_zrange by lia. cbn [option_map].
    rewrite Z.add_0_l, Ec. reflexivity. }
  assert (EM : multiplicity (pr_ml p') cl = Some (eventWays (pr_ml p') cl)).
  { unfold multiplicity. rewrite (mult_loop_prod (lt_unit L)); auto. f_equal. ring. }
  assert (EP : eventWays (pr_ml p') cl = zprod (map (entryWays (cf_types (md_cf md))) (combine (pr_ml p) ys))).
  { rewrite eventWays_prod by exact HLen. rewrite (prod_pos _ pos (length (pr_ml p))).
    - assert (G : forall (l : list pentry) (zs : list Z) lo f, length l = length zs ->
        (forall j e z, zget l j = Some e -> zget zs j = Some z -> f (lo + j) = entryWays (cf_types (md_cf md)) (e, z)) ->
        zprod (map f (zseq lo (length l))) = zprod (map (entryWays (cf_types (md_cf md))) (combine l zs))).
      { induction l as [|e l IHl]; intros [|z zs] lo f Hlen Hf; try discriminate; [reflexivity|]. cbn [length zseq map zprod combine].
        f_equal; [rewrite <- (Hf 0 e z) by reflexivity; f_equal; lia|]. apply IHl; [simpl in Hlen; lia|].
        intros j e' z' G1 G2. pose proof (zget_range _ _ _ G1). rewrite <- (Hf (j + 1) e' z'); [f_equal; lia| |];
          rewrite zget_cons; (destruct (Z.eqb_spec (j + 1) 0); [lia|]); replace (j + 1 - 1) with j by lia; assumption. }
      apply (G (pr_ml p) ys 0); [unfold zlen in Lys; lia|].
      intros j e z E3 E4. rewrite Z.add_0_l. destruct (Eys j) as (c & Ec & Ey); [eapply zget_range; eauto|].
      unfold factorAt, entryWays. cbn [fst snd]. rewrite (P1 j e E3), Ec. assert (z = ce_index c) by congruence. subst z.
      destruct (M4 c) as [_ Et]; [eapply zget_In; eauto|]. rewrite Et. destruct (zget (pe_match e) 0) as [[| |]|]; reflexivity.
    - intros j Hj. destruct (Hpos j) as (e & c & _ & E3 & _); [unfold zlen; lia|]. apply zget_range in E3. unfold zlen in E3. lia.
    - intros j k H1 H2. apply P2; [exact H1|unfold zlen; lia].
    - intros k Hk Hj. unfold factorAt. destruct (zget (pr_ml p') k) as [e|] eqn:Ee; [|reflexivity]. destruct (zget cl k) as [c|]; [|reflexivity].
      destruct (P3 k e Ee) as [(j & Hj1 & Hj2)|[W _]]; [exfalso; apply (Hj j); [unfold zlen in Hj1; lia|exact Hj2]|].
      unfold wildEntry in W. rewrite W. reflexivity. }
  exists ys, (eventWays (pr_ml p') cl). split; [exact EM|]. split; [eapply eventWays_pos; eauto|]. split; [exact Lys|].
  assert (HS : forall j e y, zget (pr_ml p) j = Some e -> zget ys j = Some y -> wildEntry e \/ suits L (md_cf md) x e y).
  { intros j e y E3 E4. destruct (Eys j) as (c & Ec & Ey); [eapply zget_range; eauto|]. assert (y = ce_index c) by congruence. subst y.
    specialize (HM' j e c E3 Ec). apply peMatch_true in HM'. destruct HM' as [W|(_ & _ & HC & HSP)]; [left; exact W|right].
    destruct (scratchML_In L (maxRange it) (md_cf md) x cl c) as (cx0 & cy0 & C1 & C2 & C3 & C4 & C5 & _); auto;
      [apply WI|pose proof (maxRange_pos it); lia|eapply zget_In; eauto|].
    exists cx0, cy0, (ce_c c), (ce_types c). split; [exact C1|]. split; [exact C2|]. split; [rewrite C3; apply wrapCoord_same|].
    split; [eapply samePoint_close; eauto|]. split; [exact C5|exact HC]. }
  split; [exact HS|]. split; [exact EP|]. intros H1. rewrite EP. apply zprod_one. intros a Ha. apply in_map_iff in Ha. destruct Ha as ([e y] & <- & Hin).
  unfold entryWays. cbn [fst snd]. pose proof (in_combine_r _ _ _ _ Hin) as Hy.
  assert (Hj : exists j, zget (pr_ml p) j = Some e /\ zget ys j = Some y).
  { clear -Hin. revert Hin. generalize (pr_ml p). generalize ys. induction ys0 as [|z zs IH]; intros [|e0 l] Hin; try (destruct Hin; fail). destruct Hin as [E|Hin].
    - inversion E; subst. exists 0. split; reflexivity.
    - destruct (IH l Hin) as (j & A & B). exists (j + 1). pose proof (zget_range _ _ _ A). rewrite !zget_cons. destruct (Z.eqb_spec (j + 1) 0); [lia|].
      replace (j + 1 - 1) with j by lia. auto. }
  destruct Hj as (j & J1 & J2). destruct (zget (pe_match e) 0) as [[| |]|] eqn:E0; try reflexivity. destruct (zget (cf_types (md_cf md)) y) as [t|] eqn:Et; [|reflexivity].
  destruct (HS j e y J1 J2) as [W|(c1 & c2 & d & t' & _ & _ & _ & _ & Et' & HC)]; [unfold wildEntry in W; congruence|].
  assert (t' = t) by congruence. subst t'. unfold ways. apply zprod_one. intros a Ha. apply in_map_iff in Ha. destruct Ha as (k & <- & _).
  destruct (zget (pe_match e) k) as [n|] eqn:En; [|reflexivity]. destruct (zget t k) as [m|] eqn:Em; [|reflexivity].
  destruct (Z.ltb_spec 0 n); [|reflexivity]. destruct HC as [_ HC]. specialize (HC k n m En Em). specialize (H1 y t m Hy k Et Em).
  assert (n = 1) by lia. assert (m = 1) by lia. subst. reflexivity.
Qed.

(** C11, what holds: every listed event without a rate calculator contributes the rate constant; this is the weight
    the property asks for exactly when there is one way (or the rate constant is zero). *)
Theorem C11_weight_partial ranks hash L cf it md i p x r m :
  wfInput ranks L cf it -> reachable ranks hash L cf it md -> in_custom (md_in md) = false -> zget (in_procs it) i = Some p ->
  evt (md_in md) i x r -> (r = pr_rate p * m <-> pr_rate p = 0 \/ m = 1).
Proof.
  intros WI HR HC Ep HE. destruct (reachable_info _ _ _ _ _ _ WI HR) as (cf1 & it2 & RI).
  destruct (iv_rate _ (ri_inv _ _ _ _ _ _ _ _ RI) HC _ _ _ HE) as (p' & Ep' & ->).
  destruct (reachable_proc _ _ _ _ _ _ _ _ _ _ RI Ep') as (p2 & q & Ep2 & Eq & Hs & HQ). assert (p2 = p) by congruence. subst p2.
  apply pstatic_fields in Hs.
  assert (ER : pr_rate p' = pr_rate p).
  { destruct Hs as (_ & _ & _ & _ & -> & _). destruct HQ as [->|[_ HQ]]; [reflexivity|]. apply expand_fields in HQ. destruct HQ as (_ & _ & _ & _ & -> & _). reflexivity. }
  rewrite ER. split; intros H; nia.
Qed.
(** C11 fails: in system 2 a site holds two particles A and a process needs one of them.  The matching code computes
    two ways, yet the event contributes the bare rate constant to the total rate. *)
Theorem C11_bucket_weight_refuted : exists ranks hash L cf it md i p p' x r cl,
  wfInput ranks L cf it /\ reachable ranks hash L cf it md /\ zget (in_procs it) i = Some p /\ pr_bucket p = true /\
  zget (in_procs (md_in md)) i = Some p' /\ zget (cf_mlists (md_cf md)) x = Some cl /\ evt (md_in md) i x r /\
  multiplicity (pr_ml p') cl = Some 2 /\ r <> pr_rate p * 2.
Proof.
  assert (E : x2check (fun cf it md md' => somewhere (zget (in_procs it) 0) (fun p => somewhere (zget (in_procs (md_in md)) 0) (fun p' =>
    somewhere (zget (cf_mlists (md_cf md)) 10) (fun cl => somewhere (multiplicity (pr_ml p') cl) (fun m =>
      pr_bucket p && (m =? 2) && existsb (fun e => (fst e =? 10) && negb (snd e =? pr_rate p * 2)) (events p')))))) = true) by (vm_compute; reflexivity).
  unfold x2check in E. apply sysCheck_sound in E. destruct E as (cf & it & md & md' & _ & _ & SY & E).
  apply somewhere_Some in E. destruct E as (p & Ep & E). apply somewhere_Some in E. destruct E as (p' & Ep' & E).
  apply somewhere_Some in E. destruct E as (cl & Ecl & E). apply somewhere_Some in E. destruct E as (m & Em & E).
  rewrite !andb_true_iff in E. destruct E as ((E1 & E2) & E3). apply Z.eqb_eq in E2. subst m.
  apply existsb_exists in E3. destruct E3 as ([y r] & Hin & E3). cbn [fst snd] in E3. apply andb_true_iff in E3. destruct E3 as [E3 E4]. apply Z.eqb_eq in E3. subst y.
  exists 3, xhash, x2L, cf, it, md, 0, p, p', 10, r, cl. split; [apply (sy_wf _ _ _ _ _ _ _ _ _ _ _ _ SY)|].
  split; [apply (system_reach _ _ _ _ _ _ _ _ _ _ _ _ SY)|]. split; [exact Ep|]. split; [exact E1|]. split; [exact Ep'|]. split; [exact Ecl|].
  split; [exists p'; auto|]. split; [exact Em|]. apply negb_true_iff in E4. apply Z.eqb_neq in E4. exact E4.
Qed.
(** The state of the refutation meets the hypotheses of C12: a multiplicity of two is computed there. *)
Example C12_example : exists ranks hash L cf it md i p p' x cl,
  wfInput ranks L cf it /\ (forall t, In t (cf_types cf) -> t <> []) /\ reachable ranks hash L cf it md /\ zget (in_procs it) i = Some p /\
  (forall e, In e (pr_ml p) -> zget (pe_match e) 0 = Some 0 \/ zget (pe_match e) 0 = Some 1) /\
  zget (in_procs (md_in md)) i = Some p' /\ zget (cf_mlists (md_cf md)) x = Some cl /\ listed md i x /\ in_custom (md_in md) = false.
Proof.
  assert (E : x2check (fun cf it md md' => somewhere (zget (in_procs it) 0) (fun p => somewhere (zget (in_procs (md_in md)) 0) (fun p' =>
    somewhere (zget (cf_mlists (md_cf md)) 10) (fun cl => forallb (fun t => negb (zlen t =? 0)) (cf_types cf) && negb (in_custom (md_in md)) &&
      forallb (fun e => somewhere (zget (pe_match e) 0) (fun w => (w =? 0) || (w =? 1))) (pr_ml p) &&
      existsb (fun e => fst e =? 10) (events p'))))) = true) by (vm_compute; reflexivity).
  unfold x2check in E. apply sysCheck_sound in E. destruct E as (cf & it & md & md' & _ & _ & SY & E).
  apply somewhere_Some in E. destruct E as (p & Ep & E). apply somewhere_Some in E. destruct E as (p' & Ep' & E).
  apply somewhere_Some in E. destruct E as (cl & Ecl & E). rewrite !andb_true_iff in E. destruct E as (((E1 & E2) & E3) & E4).
  apply existsb_exists in E4. destruct E4 as ([y r] & Hin & E4). cbn [fst] in E4. apply Z.eqb_eq in E4. subst y.
  exists 3, xhash, x2L, cf, it, md, 0, p, p', 10, cl. split; [apply (sy_wf _ _ _ _ _ _ _ _ _ _ _ _ SY)|].
  split; [intros t Ht ->; rewrite forallb_forall in E1; specialize (E1 _ Ht); discriminate|].
  split; [apply (system_reach _ _ _ _ _ _ _ _ _ _ _ _ SY)|]. split; [exact Ep|].
  split.
  - intros e He. rewrite forallb_forall in E3. specialize (E3 e He). apply somewhere_Some in E3. destruct E3 as (w & -> & E3).
    apply orb_true_iff in E3. destruct E3 as [E3|E3]; apply Z.eqb_eq in E3; subst w; auto.
  - split; [exact Ep'|]. split; [exact Ecl|]. split; [exists r, p'; auto|]. apply negb_true_iff in E2. exact E2.
Qed.

Print Assumptions C12_multiplicity.
Print Assumptions C11_weight_partial.
Print Assumptions C11_bucket_weight_refuted.
