From Verif Require Import PBase SMult PPossible.
Open Scope Z_scope.
Open Scope list_scope.

(** lo + 1, ..., lo + k *)
Fixpoint rise (lo : Z) (k : nat) : Z := match k with O => 1 | S k' => (lo + Z.of_nat k) * rise lo k' end.
Lemma descProd_rise k : forall fuel acc stop, (k <= fuel)%nat -> descProd fuel acc (stop + Z.of_nat k) stop = acc * rise stop k.
Proof.
  induction k as [|k IH]; intros fuel acc stop Hf.
  - simpl rise. rewrite Z.add_0_r, Z.mul_1_r. destruct fuel; cbn [descProd]; [reflexivity|]. rewrite Z.ltb_irrefl. reflexivity.
  - destruct fuel as [|fuel]; [lia|]. cbn [descProd]. destruct (Z.ltb_spec stop (stop + Z.of_nat (S k))) as [_|H]; [|lia].
    replace (stop + Z.of_nat (S k) - 1) with (stop + Z.of_nat k) by lia. rewrite IH by lia. cbn [rise]. ring.
Qed.
Lemma rise_pos lo k : 0 <= lo -> 0 < rise lo k.
Proof. intros H. induction k as [|k IH]; cbn [rise]; [lia|]. nia. Qed.
Lemma choose_small n k : (n < k)%nat -> choose n k = 0.
Proof. revert k. induction n as [|n IH]; intros [|k] H; try lia; cbn [choose]; [reflexivity|]. rewrite !IH by lia. reflexivity. Qed.
Lemma choose_diag n : choose n n = 1.
Proof. induction n as [|n IH]; [reflexivity|]. cbn [choose]. rewrite IH, choose_small by lia. reflexivity. Qed.
Lemma choose_0 n : choose n 0 = 1. Proof. destruct n; reflexivity. Qed.
(** rise (n - k) k = choose n k * k! *)
Lemma rise_shift lo k : rise lo (S k) = (lo + 1) * rise (lo + 1) k.
Proof.
  induction k as [|k IH]; [cbn [rise]; change (Z.of_nat 1) with 1; ring|].
  cbn [rise] in *. rewrite IH. replace (lo + 1 + Z.of_nat (S k)) with (lo + Z.of_nat (S (S k))) by lia. ring.
Qed.
Lemma rise_choose k : forall m, rise (Z.of_nat m) k = choose (m + k) k * rise 0 k.
Proof.
  induction k as [|k IH]; intros m; [cbn [rise]; rewrite choose_0; reflexivity|].
  induction m as [|m IHm].
  - rewrite Nat.add_0_l, choose_diag. change (Z.of_nat 0) with 0. ring.
  - replace (S m + S k)%nat with (S (m + S k)) by lia. cbn [choose].
    replace (m + S k)%nat with (S m + k)%nat at 1 by lia.
    rewrite Z.mul_add_distr_r. rewrite <- IHm.
    assert (E : choose (S m + k) k * rise 0 (S k) = Z.of_nat (S k) * rise (Z.of_nat (S m)) k) by (rewrite (IH (S m)); cbn [rise]; ring).
    rewrite E. rewrite (rise_shift (Z.of_nat m)). cbn [rise]. replace (Z.of_nat m + 1) with (Z.of_nat (S m)) by lia. ring.
Qed.
Lemma choose_sym n k : (k <= n)%nat -> choose n k = choose n (n - k).
Proof.
  intros H. pose proof (rise_choose k (n - k)) as A. pose proof (rise_choose (n - k) k) as B.
  replace (n - k + k)%nat with n in A by lia. replace (k + (n - k))%nat with n in B by lia.
  (* both equal n! / (k! (n-k)!) *)
  assert (F : forall a b, rise 0 (a + b) = rise (Z.of_nat a) b * rise 0 a).
  { intros a b. induction b as [|b IHb]; [rewrite Nat.add_0_r; cbn [rise]; ring|].
    rewrite Nat.add_succ_r. cbn [rise]. rewrite IHb. replace (0 + Z.of_nat (S (a + b))) with (Z.of_nat a + Z.of_nat (S b)) by lia. ring. }
  pose proof (F (n - k)%nat k) as F1. pose proof (F k (n - k)%nat) as F2.
  replace (n - k + k)%nat with n in F1 by lia. replace (k + (n - k))%nat with n in F2 by lia.
  rewrite A in F1. rewrite B in F2. rewrite F2 in F1.
  pose proof (rise_pos 0 k ltac:(lia)). pose proof (rise_pos 0 (n - k) ltac:(lia)).
  assert (0 < rise 0 (n - k) * rise 0 k) by nia.
  apply (Z.mul_reg_r _ _ (rise 0 (n - k) * rise 0 k)); [lia|].
  transitivity (choose n k * rise 0 k * rise 0 (n - k)); [ring|]. rewrite <- F1. ring.
Qed.
Lemma binomCode_choose n r : 0 <= r <= n -> binomCode n r = chooseZ n r.
Proof.
  intros H. unfold binomCode, chooseZ. set (mx := Z.max r (n - r)). set (mn := Z.min r (n - r)).
  assert (Hsum : mx + mn = n) by (unfold mx, mn; lia). assert (Hmn : 0 <= mn <= mx) by (unfold mx, mn; lia).
  assert (E : choose (Z.to_nat n) (Z.to_nat r) = choose (Z.to_nat n) (Z.to_nat mn)).
  { unfold mn. destruct (Z.min_spec r (n - r)) as [[_ ->]|[_ ->]]; [reflexivity|].
    rewrite (choose_sym _ (Z.to_nat r)) by lia. f_equal. lia. }
  rewrite E. clearbody mx mn. destruct (Z.eqb_spec mn 0) as [->|Hn]; [rewrite choose_0; reflexivity|].
  destruct (Z.to_nat mn) as [|k] eqn:Ek; [lia|].
  assert (D1 : descProd (Z.to_nat n) n (n - 1) mx = rise mx (S k)).
  { replace (n - 1) with (mx + Z.of_nat k) by lia. rewrite descProd_rise by lia. cbn [rise]. f_equal. lia. }
  assert (D2 : descProd (S k) mn (mn - 1) 0 = rise 0 (S k)).
  { replace (mn - 1) with (0 + Z.of_nat k) by lia. rewrite descProd_rise by lia. cbn [rise]. f_equal. lia. }
  rewrite D1, D2. replace mx with (Z.of_nat (Z.to_nat mx)) by lia. rewrite rise_choose.
  replace (Z.to_nat mx + S k)%nat with (Z.to_nat n) by lia.
  apply Z.quot_mul. pose proof (rise_pos 0 (S k) ltac:(lia)). lia.
Qed.
Lemma choose_pos n k : (k <= n)%nat -> 1 <= choose n k.
Proof.
  revert k. induction n as [|n IH]; intros [|k] H; try lia; cbn [choose]; [lia|lia|].
  destruct (Nat.eq_dec k n) as [->|E]; [rewrite choose_diag, choose_small by lia; lia|].
  pose proof (IH k ltac:(lia)). pose proof (IH (S k) ltac:(lia)). lia.
Qed.

(** ** the loops *)
Lemma zprod_app a b : zprod (a ++ b) = zprod a * zprod b.
Proof. induction a as [|x a IH]; cbn [zprod app]; [ring|rewrite IH; ring]. Qed.
Lemma zprod_pos l : (forall a, In a l -> 1 <= a) -> 1 <= zprod l.
Proof. induction l as [|a l IH]; intros H; cbn [zprod]; [lia|]. pose proof (H a (or_introl eq_refl)). specialize (IH (fun b Hb => H b (or_intror Hb))). nia. Qed.
Lemma zprod_one l : (forall a, In a l -> a = 1) -> zprod l = 1.
Proof. induction l as [|a l IH]; intros H; cbn [zprod]; [reflexivity|]. rewrite (H a (or_introl eq_refl)), (IH (fun b Hb => H b (or_intror Hb))). reflexivity. Qed.

Definition wayOf (rn : Z * Z) : Z := if 0 <? fst rn then chooseZ (snd rn) (fst rn) else 1.
Lemma mult_types_prod t1 : forall t2 m, (forall t r n, zget t1 t = Some r -> zget t2 t = Some n -> r <= n) -> zlen t1 = zlen t2 ->
  mult_types m t1 t2 = Some (m * zprod (map wayOf (combine t1 t2))).
Proof.
  induction t1 as [|r t1 IH]; intros t2 m HC HL; cbn [mult_types combine map zprod]; [f_equal; ring|].
  destruct t2 as [|n t2]; [rewrite zlen_cons in HL; change (zlen (@nil Z)) with 0 in HL; pose proof (zlen_nonneg t1); lia|].
  cbn [combine map zprod]. rewrite !zlen_cons in HL.
  rewrite IH; [|intros t r' n' H1 H2; apply (HC (t + 1) r' n'); rewrite zget_cons;
     [pose proof (zget_range _ _ _ H1); destruct (Z.eqb_spec (t + 1) 0); [lia|]; replace (t + 1 - 1) with t by lia; exact H1
     |pose proof (zget_range _ _ _ H2); destruct (Z.eqb_spec (t + 1) 0); [lia|]; replace (t + 1 - 1) with t by lia; exact H2]|lia].
  f_equal. unfold wayOf at 2. cbn [fst snd]. destruct (Z.ltb_spec 0 r) as [H|H]; [|ring].
  rewrite binomCode_choose; [ring|]. split; [lia|]. apply (HC 0 r n); reflexivity.
Qed.
Lemma zprod_combine t1 : forall t2 lo, zlen t1 = zlen t2 ->
  zprod (map (fun t => match zget t1 (t - lo), zget t2 (t - lo) with Some r, Some n => wayOf (r, n) | _, _ => 1 end) (zrange lo (lo + zlen t1 - 1)))
  = zprod (map wayOf (combine t1 t2)).
Proof.
  induction t1 as [|r t1 IH]; intros t2 lo HL.
  - change (zlen (@nil Z)) with 0. unfold zrange. replace (Z.to_nat (lo + 0 - 1 - lo + 1)) with 0%nat by lia. reflexivity.
  - destruct t2 as [|n t2]; [rewrite zlen_cons in HL; change (zlen (@nil Z)) with 0 in HL; pose proof (zlen_nonneg t1); lia|].
    rewrite !zlen_cons in *. pose proof (zlen_nonneg t1).
    unfold zrange. replace (Z.to_nat (lo + (zlen t1 + 1) - 1 - lo + 1)) with (S (Z.to_nat (zlen t1))) by lia.
    cbn [zseq map zprod combine]. rewrite Z.sub_diag. rewrite !zget_cons. cbn [Z.eqb]. f_equal.
    rewrite <- (IH t2 (lo + 1)) by lia. unfold zrange. replace (Z.to_nat (lo + 1 + zlen t1 - 1 - (lo + 1) + 1)) with (Z.to_nat (zlen t1)) by lia.
    f_equal. apply map_ext_in. intros t Ht. apply In_zseq in Ht. rewrite !zget_cons.
    destruct (Z.eqb_spec (t - lo) 0); [lia|]. replace (t - lo - 1) with (t - (lo + 1)) by lia. reflexivity.
Qed.
Lemma ways_combine need have : zlen need = zlen have -> ways need have = zprod (map wayOf (combine (tl need) (tl have))).
Proof.
  intros HL. destruct need as [|r0 need], have as [|n0 have]; try reflexivity;
    try (rewrite zlen_cons in HL; change (zlen (@nil Z)) with 0 in HL; match goal with l : list Z |- _ => pose proof (zlen_nonneg l) end; lia).
  cbn [tl]. rewrite !zlen_cons in HL. rewrite <- (zprod_combine need have 1) by lia. unfold ways. rewrite zlen_cons.
  replace (zlen need + 1 - 1) with (1 + zlen need - 1) by lia.
  f_equal. apply map_ext_in. intros t Ht. apply In_zrange in Ht. rewrite !zget_cons. destruct (Z.eqb_spec t 0); [lia|].
  destruct (zget need (t - 1)), (zget have (t - 1)); reflexivity.
Qed.
Lemma mult_loop_prod S l : forall cl m, match_loop S l cl = Some true -> (forall e, In e l -> zget (pe_match e) 0 = Some 0 \/ wildEntry e) ->
  mult_loop m l cl = Some (m * eventWays l cl).
Proof.
  induction l as [|e l IH]; intros [|c cl] m HM HW; cbn [match_loop mult_loop] in *; try discriminate;
    [unfold eventWays; cbn; f_equal; ring|unfold eventWays; cbn; f_equal; ring|].
  ob HM as b Eb. destruct b; [|discriminate].
  assert (EW : eventWays (e :: l) (c :: cl) = match zget (pe_match e) 0 with Some 0 => ways (pe_match e) (ce_types c) | _ => 1 end * eventWays l cl) by reflexivity.
  rewrite EW. destruct (HW e (or_introl eq_refl)) as [E|E].
  - unfold bget. rewrite E. cbn [obind Z.eqb]. apply peMatch_true in Eb. destruct Eb as [W|(_ & _ & HC & _)]; [unfold wildEntry in W; congruence|].
    destruct HC as [HC1 HC2]. rewrite mult_types_prod.
    + cbn [obind]. rewrite IH; auto; [|intros; apply HW; right; auto]. rewrite ways_combine by (unfold bucket in *; congruence). f_equal. ring.
    + intros t r n H1 H2. destruct (pe_match e) as [|r0 need]; [discriminate|]. destruct (ce_types c) as [|n0 have]; [cbn [tl] in H2; rewrite zget_nil in H2; discriminate|].
      cbn [tl] in *. apply (HC2 (t + 1)); rewrite zget_cons;
        [pose proof (zget_range _ _ _ H1); destruct (Z.eqb_spec (t + 1) 0); [lia|]; replace (t + 1 - 1) with t by lia; exact H1
        |pose proof (zget_range _ _ _ H2); destruct (Z.eqb_spec (t + 1) 0); [lia|]; replace (t + 1 - 1) with t by lia; exact H2].
    + clear -HC1. unfold bucket in *. destruct (pe_match e) as [|a l1], (ce_types c) as [|b l2]; cbn [tl]; rewrite ?zlen_cons in *;
        [reflexivity|change (zlen (@nil Z)) with 0 in *; pose proof (zlen_nonneg l2); lia|change (zlen (@nil Z)) with 0 in *; pose proof (zlen_nonneg l1); lia|lia].
  - unfold bget. rewrite E. cbn [obind Z.eqb]. rewrite IH; auto; [|intros; apply HW; right; auto]. f_equal. ring.
Qed.
Lemma ways_pos need have : contains have need -> 1 <= ways need have.
Proof.
  intros [HL HC]. unfold ways. apply zprod_pos. intros a Ha. apply in_map_iff in Ha. destruct Ha as (t & <- & _).
  destruct (zget need t) as [r|] eqn:E1; [|lia]. destruct (zget have t) as [n|] eqn:E2; [|lia].
  destruct (Z.ltb_spec 0 r); [|lia]. unfold chooseZ. apply choose_pos. specialize (HC t r n E1 E2). lia.
Qed.
Lemma eventWays_pos S l : forall cl, match_loop S l cl = Some true -> 1 <= eventWays l cl.
Proof.
  induction l as [|e l IH]; intros [|c cl] HM; cbn [match_loop] in *; [unfold eventWays; cbn; lia|unfold eventWays; cbn; lia|discriminate|].
  ob HM as b Eb. destruct b; [|discriminate]. specialize (IH cl HM).
  assert (EW : eventWays (e :: l) (c :: cl) = match zget (pe_match e) 0 with Some 0 => ways (pe_match e) (ce_types c) | _ => 1 end * eventWays l cl) by reflexivity.
  rewrite EW. apply peMatch_true in Eb. unfold wildEntry in Eb.
  assert (1 <= match zget (pe_match e) 0 with Some 0 => ways (pe_match e) (ce_types c) | _ => 1 end); [|nia].
  destruct (zget (pe_match e) 0) as [[| |]|] eqn:E; try lia. destruct Eb as [W|(_ & _ & HC & _)]; [discriminate|]. apply ways_pos; exact HC.
Qed.
Lemma eventWays_single l : forall cl, (forall c t n, In c cl -> zget (ce_types c) t = Some n -> n <= 1) ->
  (forall e c, In (e, c) (combine l cl) -> wildEntry e \/ contains (ce_types c) (pe_match e)) -> eventWays l cl = 1.
Proof.
  intros cl HS HC. unfold eventWays. apply zprod_one. intros a Ha. apply in_map_iff in Ha. destruct Ha as ([e c] & <- & Hin). cbn [fst snd].
  destruct (zget (pe_match e) 0) as [[| |]|] eqn:E; try reflexivity.
  destruct (HC e c Hin) as [W|[_ C]]; [unfold wildEntry in W; congruence|]. apply in_combine_r in Hin.
  unfold ways. apply zprod_one. intros a Ha. apply in_map_iff in Ha. destruct Ha as (t & <- & _).
  destruct (zget (pe_match e) t) as [r|] eqn:E1; [|reflexivity]. destruct (zget (ce_types c) t) as [n|] eqn:E2; [|reflexivity].
  destruct (Z.ltb_spec 0 r); [|reflexivity]. specialize (C t r n E1 E2). specialize (HS c t n Hin E2).
  assert (r = 1) by lia. assert (n = 1) by lia. subst. reflexivity.
Qed.
