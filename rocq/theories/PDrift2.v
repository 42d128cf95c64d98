(** Rates on a grid: computations with doubles and with integers agree. *)
From Coq Require Import Reals Psatz.
From Flocq Require Import Core BinarySingleNaN.
From Verif Require Import PBase SModel SFloat PFloat PProcess PDrift PRateTable PSelect.
From Coq Require Import ZifyBool.
Open Scope list_scope.
Open Scope Z_scope.

Section Grid.
Context (e : Z) (He : -900 <= e <= 900).
Lemma grid_exact' z : Z.abs z <= 2 ^ 53 -> rn (IZR z * b2 e) = (IZR z * b2 e)%R /\ (Rabs (rn (IZR z * b2 e)) < b2 1024)%R.
Proof using He.
  intros Hz. assert (E : rn (IZR z * b2 e) = (IZR z * b2 e)%R) by (apply rn_id, F_grid; lia). split; [exact E|]. rewrite E, Rabs_mult, <- abs_IZR, (Rabs_pos_eq (b2 e)) by apply bpow_ge_0.
  apply Rle_lt_trans with (b2 53 * b2 e)%R; [apply Rmult_le_compat_r; [apply bpow_ge_0|change (b2 53) with (IZR (2 ^ 53)); apply IZR_le; lia]|]. rewrite <- bpow_plus. apply bpow_lt. lia.
Qed.
Lemma asd_add a b x y : asDouble e a x -> asDouble e b y -> Z.abs (a + b) <= 2 ^ 53 -> asDouble e (a + b) (fadd x y).
Proof using He.
  intros [Fx Vx] [Fy Vy] H. destruct (grid_exact' _ H) as [G1 G2]. assert (ES : (val x + val y = IZR (a + b) * b2 e)%R) by (rewrite Vx, Vy, plus_IZR; ring).
  destruct (add_val x y Fx Fy) as [V F]; [rewrite ES; exact G2|]. split; [exact F|]. rewrite V, ES. exact G1.
Qed.
Lemma asd_sub a b x y : asDouble e a x -> asDouble e b y -> Z.abs (a - b) <= 2 ^ 53 -> asDouble e (a - b) (fsub x y).
Proof using He.
  intros [Fx Vx] [Fy Vy] H. destruct (grid_exact' _ H) as [G1 G2]. assert (ES : (val x - val y = IZR (a - b) * b2 e)%R) by (rewrite Vx, Vy, minus_IZR; ring).
  destruct (sub_val x y Fx Fy) as [V F]; [rewrite ES; exact G2|]. split; [exact F|]. rewrite V, ES. exact G1.
Qed.
Lemma asd_mul a m x y : asDouble e a x -> asDouble 0 m y -> Z.abs (a * m) <= 2 ^ 53 -> asDouble e (a * m) (fmul x y) /\ asDouble e (m * a) (fmul y x).
Proof using He.
  intros [Fx Vx] [Fy Vy] H. destruct (grid_exact' _ H) as [G1 G2]. assert (ES : (val x * val y = IZR (a * m) * b2 e)%R) by (rewrite Vx, Vy, mult_IZR; cbn [bpow]; ring).
  assert (ES' : (val y * val x = IZR (a * m) * b2 e)%R) by (rewrite Rmult_comm; exact ES).
  destruct (mul_val x y Fx Fy) as [V F]; [rewrite ES; exact G2|]. destruct (mul_val y x Fy Fx) as [V' F']; [rewrite ES'; exact G2|]. rewrite (Z.mul_comm m a).
  split; (split; [assumption|]); [rewrite V, ES|rewrite V', ES']; exact G1.
Qed.
Lemma asd_mul1 a m x y : asDouble e a x -> asDouble 0 m y -> Z.abs (a * m) <= 2 ^ 53 -> asDouble e (a * m) (fmul x y).
Proof using He. intros H1 H2 H3. exact (proj1 (asd_mul a m x y H1 H2 H3)). Qed.
Lemma asd_mul2 a m x y : asDouble e a x -> asDouble 0 m y -> Z.abs (a * m) <= 2 ^ 53 -> asDouble e (m * a) (fmul y x).
Proof using He. intros H1 H2 H3. exact (proj2 (asd_mul a m x y H1 H2 H3)). Qed.
Lemma flt_val x y : fin x -> fin y -> flt x y = true <-> (val x < val y)%R.
Proof.
  intros Fx Fy. unfold flt. rewrite (Bcompare_correct 53 1024) by assumption. destruct (Rcompare_spec (val x) (val y)); split; intros; try reflexivity; try discriminate; lra.
Qed.
Lemma asd_zero : asDouble e 0 fzero.
Proof. split; [reflexivity|]. cbn. ring. Qed.

(** the comparison with u times the total is the comparison of the model for some deviate *)
Lemma pick_dev T u total : 0 < T <= 2 ^ 53 -> asDouble e T total -> fin u -> (b2 (-64) <= val u <= 1)%R ->
  exists d, 0 < dv_num d <= dv_den d /\ forall z x, asDouble e z x -> flt x (fmul u total) = belowDev d T z.
Proof using He.
  intros HT [Ft Vt] Fu Hu. set (W := (val u * val total)%R).
  assert (Tpos : (0 < IZR T)%R) by (apply IZR_lt; lia). assert (Epos : (0 < b2 e)%R) by apply bpow_gt_0.
  assert (HW1 : (b2 (-964) <= W)%R).
  { unfold W. rewrite Vt. change (-964) with (-64 + -900). rewrite bpow_plus. apply Rmult_le_compat; try apply bpow_ge_0; [apply Hu|]. rewrite <- (Rmult_1_l (b2 (-900))). apply Rmult_le_compat; try apply bpow_ge_0; [lra|apply IZR_le; lia|apply bpow_le; lia]. }
  assert (HW2 : (W <= IZR T * b2 e)%R) by (unfold W; rewrite Vt; rewrite <- (Rmult_1_l (IZR T * b2 e)) at 2; apply Rmult_le_compat_r; [apply Rmult_le_pos; lra|apply Hu]).
  destruct (grid_exact' T) as [G1 G2]; [lia|].
  assert (HR : (b2 (-964) <= rn W <= IZR T * b2 e)%R).
  { split; [rewrite <- (rn_id (b2 (-964))) by (apply generic_format_FLT_bpow; [reflexivity|lia]); apply rn_le; exact HW1|rewrite <- G1; apply rn_le; exact HW2]. }
  assert (R0 : (0 < rn W)%R) by (eapply Rlt_le_trans; [apply bpow_gt_0|apply HR]).
  destruct (mul_val u total Fu Ft) as [V F]; [fold W; rewrite Rabs_pos_eq by lra; eapply Rle_lt_trans; [apply HR|]; rewrite <- G1; eapply Rle_lt_trans; [apply Rle_abs|exact G2]|]. fold W in V.
  pose proof (F_rn W) as FW. unfold generic_format in FW. set (m := Ztrunc (scaled_mantissa radix2 e64 (rn W))) in *. set (c := cexp radix2 e64 (rn W)) in *. unfold F2R in FW. cbn [Fnum Fexp] in FW.
  assert (Mpos : 0 < m) by (apply lt_IZR; apply (Rmult_lt_reg_r (b2 c)); [apply bpow_gt_0|]; rewrite Rmult_0_l, <- FW; exact R0).
  set (A := Z.max (e - c) 0). set (B := Z.max (c - e) 0). set (mn := Z.min e c).
  assert (PA : (IZR (2 ^ A) * b2 mn = b2 e)%R) by (change (2 ^ A) with (radix2 ^ A); rewrite IZR_Zpower by lia; rewrite <- bpow_plus; f_equal; lia).
  assert (PB : (IZR (2 ^ B) * b2 mn = b2 c)%R) by (change (2 ^ B) with (radix2 ^ B); rewrite IZR_Zpower by lia; rewrite <- bpow_plus; f_equal; lia).
  assert (A0 : 0 < 2 ^ A) by (apply Z.pow_pos_nonneg; lia). assert (B0 : 0 < 2 ^ B) by (apply Z.pow_pos_nonneg; lia). assert (MN : (0 < b2 mn)%R) by apply bpow_gt_0.
  exists (mkDev (m * 2 ^ B) (T * 2 ^ A)). cbn [dv_num dv_den]. split.
  - split; [nia|]. apply le_IZR. apply (Rmult_le_reg_r (b2 mn)); [exact MN|]. rewrite !mult_IZR, !Rmult_assoc, PA, PB, <- FW. apply HR.
  - intros z x [Fx Vx]. unfold belowDev. cbn [dv_num dv_den]. apply eq_true_iff_eq. rewrite flt_val by assumption. rewrite Z.ltb_lt, V, Vx, FW.
    assert (E1 : (IZR z * b2 e = IZR (z * 2 ^ A) * b2 mn)%R) by (rewrite mult_IZR, Rmult_assoc, PA; reflexivity).
    assert (E2 : (IZR m * b2 c = IZR (m * 2 ^ B) * b2 mn)%R) by (rewrite mult_IZR, Rmult_assoc, PB; reflexivity).
    rewrite E1, E2. split; intros H.
    + apply Rmult_lt_reg_r in H; [|exact MN]. apply lt_IZR in H. nia.
    + apply Rmult_lt_compat_r; [exact MN|]. apply IZR_lt. nia.
Qed.

(** ** lists *)
Lemma F2_zget {A B} (R : A -> B -> Prop) l m i : Forall2 R l m -> forall a, zget l i = Some a -> exists b, zget m i = Some b /\ R a b.
Proof.
  intros H. revert i. induction H as [|a b l m HR HF IH]; intros i x E; [rewrite zget_nil in E; discriminate|]. rewrite zget_cons in E. rewrite zget_cons. destruct (i =? 0); [injection E as <-; eauto|]. apply IH. exact E.
Qed.
Lemma F2_zlen {A B} (R : A -> B -> Prop) l m : Forall2 R l m -> zlen l = zlen m.
Proof. induction 1; [reflexivity|]. rewrite !zlen_cons. lia. Qed.
Lemma F2_intro {A B} (R : A -> B -> Prop) l : forall m, zlen m = zlen l -> (forall i a b, zget l i = Some a -> zget m i = Some b -> R a b) -> Forall2 R l m.
Proof.
  clear e He. induction l as [|a l IH]; intros [|b m] HL H; [constructor|rewrite zlen_cons in HL; pose proof (zlen_nonneg m); cbn in HL; lia|rewrite zlen_cons in HL; pose proof (zlen_nonneg l); cbn in HL; lia|].
  constructor; [apply (H 0); reflexivity|]. apply IH; [rewrite !zlen_cons in HL; lia|]. intros i x y Hx Hy. apply zget_range in Hx as Ri. apply (H (i + 1)); rewrite zget_cons; destruct (Z.eqb_spec (i + 1) 0); try lia; replace (i + 1 - 1) with i by ring; assumption.
Qed.
Lemma F2_zset {A B} (R : A -> B -> Prop) l m i a b l' : Forall2 R l m -> R a b -> zset l i a = Some l' -> exists m', zset m i b = Some m' /\ Forall2 R l' m'.
Proof.
  clear e He. intros H HR E. assert (L : zlen l = zlen m) by (apply (F2_zlen _ _ _ H)).
  destruct (zset_lt m i b) as [m' Em]. { apply zset_Some in E. lia. }
  exists m'. split; [exact Em|]. apply F2_intro.
  - rewrite (zset_len _ _ _ _ E), (zset_len _ _ _ _ Em). symmetry; exact L.
  - intros j x y Hx Hy. rewrite (zset_get _ _ _ _ _ E) in Hx. rewrite (zset_get _ _ _ _ _ Em) in Hy. destruct (j =? i); [congruence|]. destruct (F2_zget _ _ _ _ H _ Hx) as (y' & Ey & Q). congruence.
Qed.
End Grid.
Lemma F2_removelast {A B} (R : A -> B -> Prop) l m : Forall2 R l m -> Forall2 R (removelast l) (removelast m).
Proof. induction 1 as [|a b l m HR HF IH]; [constructor|]. destruct HF; [constructor|]. cbn [removelast] in *. constructor; auto. Qed.
Lemma F2_swapRemove {A B} (R : A -> B -> Prop) l m pos l' a : Forall2 R l m -> swapRemove l pos = Some (l', a) -> exists m' b, swapRemove m pos = Some (m', b) /\ Forall2 R l' m' /\ R a b.
Proof.
  intros H E. unfold swapRemove in *. ob E as x Ex. ob E as y Ey. ob E as z Ez. injection E as <- <-. destruct (F2_zget _ _ _ _ H _ Ex) as (x' & Ex' & Rx). rewrite (F2_zlen _ _ _ H) in Ey. destruct (F2_zget _ _ _ _ H _ Ey) as (y' & Ey' & Ry).
  destruct (F2_zset _ _ _ _ _ _ _ H Ry Ez) as (z' & Ez' & Rz). rewrite Ex'. cbn [Base.obind]. rewrite Ey'. cbn [Base.obind]. rewrite Ez'. cbn [Base.obind]. exists (removelast z'), x'. split; [reflexivity|]. split; [apply F2_removelast; exact Rz|exact Rx].
Qed.
Lemma F2_omap {A B C D} (P : A -> C -> Prop) (R : B -> D -> Prop) (f : A -> option B) (g : C -> option D) l m rs : Forall2 P l m -> omap f l = Some rs ->
  (forall a c b, P a c -> f a = Some b -> In b rs -> exists d, g c = Some d /\ R b d) -> exists ss, omap g m = Some ss /\ Forall2 R rs ss.
Proof.
  intros H. revert rs. induction H as [|a c l m HP HF IH]; intros rs E HH; cbn [omap] in *; [injection E as <-; exists []; split; [reflexivity|constructor]|].
  ob E as b Eb. ob E as bs Ebs. injection E as <-. destruct (HH a c b HP Eb (or_introl eq_refl)) as (d & Ed & Rd). destruct (IH bs Ebs) as (ds & Eds & Rds); [intros a' c' b' Ha' Eb' Hin; apply (HH a' c' b' Ha' Eb'); right; exact Hin|].
  exists (d :: ds). rewrite Ed. cbn [Base.obind]. rewrite Eds. split; [reflexivity|]. constructor; assumption.
Qed.
Lemma F2_same {A} (l : list A) : Forall2 eq l l.
Proof. induction l; constructor; auto. Qed.
Lemma lower_bound_F2 {A B} (R : A -> B -> Prop) (f : A -> bool) (g : B -> bool) l m : Forall2 R l m -> (forall a b, R a b -> f a = g b) -> lower_bound f l = lower_bound g m.
Proof.
  intros H HE. unfold lower_bound. rewrite (F2_zlen _ _ _ H). assert (L : Datatypes.length l = Datatypes.length m) by (clear - H; induction H; cbn; lia). rewrite L. generalize (S (Datatypes.length m)) as fuel. clear L. generalize 0 as first. generalize (zlen m) as len.
  intros len first fuel. revert len first. induction fuel as [|fuel IH]; intros len first; [reflexivity|]. cbn [lower_bound_fuel]. destruct (0 <? len); [|reflexivity].
  destruct (zget l (first + len / 2)) as [a|] eqn:Ea.
  - destruct (F2_zget _ _ _ _ H _ Ea) as (b & Eb & Rb). rewrite Eb. cbn [Base.obind]. rewrite (HE a b Rb). destruct (g b); apply IH.
  - apply zget_None in Ea. rewrite (F2_zlen _ _ _ H) in Ea. apply zget_None in Ea. rewrite Ea. reflexivity.
Qed.

(** ** processes *)
Section Same.
Context (e : Z) (He : -900 <= e <= 900).
Lemma same_add p fp i r m fr fm : sameRates e p fp -> asDouble e r fr -> asDouble 0 m fm -> Z.abs (m * (if pr_custom p then r else pr_rate p)) <= 2 ^ 53 -> Z.abs (pr_total (addSite p i r m)) <= 2 ^ 53 ->
  sameRates e (addSite p i r m) (faddSite fp i fr fm).
Proof using He.
  intros [S1 S2 S3 S4 S5 S6 S7] Hr Hm B1 B2. unfold addSite, faddSite in *. rewrite S1. destruct (pr_custom p) eqn:EC; cbn [set_sites pr_total] in B2.
  - constructor; cbn; auto; try congruence; [apply Forall2_app; auto|apply Forall2_app; auto|]. apply asd_add; auto. apply (asd_mul2 e He r m); auto. rewrite Z.mul_comm. exact B1.
  - constructor; cbn; auto; try congruence; [apply Forall2_app; auto|]. apply asd_add; auto. apply (asd_mul2 e He (pr_rate p) m); auto. rewrite Z.mul_comm. exact B1.
Qed.
Lemma same_clear p fp : sameRates e p fp -> sameRates e (clearSites p) (fclearSites fp).
Proof using He. intros [S1 S2 S3 S4 S5 S6 S7]. constructor; cbn; auto. apply asd_zero. Qed.
(** the products of rate and multiplicity *)
Definition bounded (p : process) : Prop := exists rs, siteRates p = Some rs /\ Forall (fun r => 0 <= r) rs /\ zsum rs <= 2 ^ 53.
Lemma zsum_le rs r : Forall (fun r => 0 <= r) rs -> In r rs -> 0 <= r <= zsum rs.
Proof.
  induction 1 as [|a l Ha HF IH]; intros H; [destruct H|]. change (zsum (a :: l)) with (a + zsum l). assert (0 <= zsum l) by (apply zsum_nonneg; rewrite Forall_forall in HF; exact HF).
  destruct H as [->|H]; [lia|]. specialize (IH H). lia.
Qed.
Lemma same_table p fp p' : sameRates e p fp -> bounded p -> updateRateTable p = Some p' -> exists fp', fupdateRateTable fp = Some fp' /\ sameRates e p' fp'.
Proof using He.
  intros SR (rs & Ers & Hrs & HS) E. unfold updateRateTable in E. rewrite Ers in E. cbn [Base.obind] in E. injection E as <-. pose proof SR as [S1 S2 S3 S4 S5 S6 S7].
  assert (exists frs, fsiteRates fp = Some frs /\ Forall2 (asDouble e) rs frs) as (frs & Efrs & HF).
  { unfold siteRates, fsiteRates in *. rewrite S1. destruct (pr_custom p).
    - rewrite <- (F2_zlen _ _ _ S3). apply (F2_omap eq (asDouble e) _ _ _ _ _ (F2_same _) Ers). intros i j b <- Eb Hb. ob Eb as r Er. ob Eb as m Em. injection Eb as <-.
      destruct (F2_zget _ _ _ _ S4 _ Er) as (fr & Efr & Rr). destruct (F2_zget _ _ _ _ S3 _ Em) as (fm & Efm & Rm). exists (fmul fr fm). rewrite Efr. cbn [Base.obind]. rewrite Efm. split; [reflexivity|].
      apply asd_mul1; auto. pose proof (zsum_le rs _ Hrs Hb). lia.
    - injection Ers as Ers. eexists. split; [reflexivity|]. subst rs. assert (HB : forall m, In m (pr_mult p) -> Z.abs (pr_rate p * m) <= 2 ^ 53) by (intros m Hm; pose proof (zsum_le _ _ Hrs (in_map (fun m => pr_rate p * m) _ _ Hm)) as Q; cbn beta in Q; lia).
      clear - He S3 S5 HB. induction S3 as [|m fm l fl Hm HF IH]; cbn [map]; constructor; [apply asd_mul1; auto; apply HB; left; reflexivity|apply IH; intros; apply HB; right; assumption]. }
  unfold fupdateRateTable. rewrite Efrs. cbn [Base.obind]. eexists. split; [reflexivity|]. constructor; cbn; auto.
  assert (HI : forall rs frs prev fprev, Forall2 (asDouble e) rs frs -> Forall (fun r => 0 <= r) rs -> 0 <= prev -> prev + zsum rs <= 2 ^ 53 -> asDouble e prev fprev -> Forall2 (asDouble e) (incTable prev rs) (fincTable fprev frs)).
  { clear - He. intros rs frs prev fprev H. revert prev fprev. induction H as [|r fr rs frs Hr HF IH]; intros prev fprev HN Hp HB HA; cbn [incTable fincTable]; [constructor|].
    inversion HN as [|? ? N1 N2]; subst. change (zsum (r :: rs)) with (r + zsum rs) in HB. assert (0 <= zsum rs) by (apply zsum_nonneg; rewrite Forall_forall in N2; exact N2).
    assert (asDouble e (prev + r) (fadd fprev fr)) by (apply asd_add; auto; lia). constructor; [assumption|]. apply IH; auto; lia. }
  apply HI; auto; [lia|apply asd_zero].
Qed.
Lemma siteRates_get p rs pos r m : siteRates p = Some rs -> zget (pr_mult p) pos = Some m -> (if pr_custom p then zget (pr_srates p) pos = Some r else r = pr_rate p) -> zget rs pos = Some (r * m).
Proof using He.
  intros E Em Er. unfold siteRates in E. destruct (pr_custom p).
  - rewrite (omap_zget _ _ _ pos E). apply zget_range in Em as R. rewrite zget_zrange by lia. rewrite Z.add_0_l. cbn [Base.obind]. rewrite Er. cbn [Base.obind]. rewrite Em. reflexivity.
  - injection E as <-. rewrite zget_map, Em. subst r. reflexivity.
Qed.
Lemma same_remove p fp i p' : sameRates e p fp -> bounded p -> removeSite p i = Some p' -> Z.abs (pr_total p') <= 2 ^ 53 -> exists fp', fremoveSite fp i = Some fp' /\ sameRates e p' fp'.
Proof using He.
  intros SR (rs & Ers & Hrs & HS) E HB. pose proof SR as [S1 S2 S3 S4 S5 S6 S7]. unfold removeSite, fremoveSite in *. rewrite S2. set (pos := zfind (pr_sites p) i) in *. ob E as s Es. rewrite Es. cbn [Base.obind]. rewrite S1.
  destruct (pr_custom p) eqn:EC.
  - ob E as rr Err. ob E as rm Erm. injection E as <-. destruct rr as [srates' r], rm as [mult' m]. destruct (F2_swapRemove _ _ _ _ _ _ S4 Err) as (fs & fr & Efr & Ffs & Rr). destruct (F2_swapRemove _ _ _ _ _ _ S3 Erm) as (fms & fm & Efm & Ffm & Rm).
    rewrite Efr. cbn [Base.obind]. rewrite Efm. cbn [Base.obind fst snd]. eexists. split; [reflexivity|]. cbn [fst snd set_sites pr_total] in HB. constructor; cbn; auto.
    apply asd_sub; auto. apply asd_mul1; auto. apply swapRemove_perm in Err, Erm. pose proof (siteRates_get p rs pos r m Ers (proj2 Erm)) as G. rewrite EC in G. specialize (G (proj2 Err)). apply zget_In in G. pose proof (zsum_le _ _ Hrs G). lia.
  - ob E as rm Erm. injection E as <-. destruct rm as [mult' m]. destruct (F2_swapRemove _ _ _ _ _ _ S3 Erm) as (fms & fm & Efm & Ffm & Rm). rewrite Efm. cbn [Base.obind fst snd]. eexists. split; [reflexivity|]. cbn [fst snd set_sites pr_total] in HB. constructor; cbn; auto.
    apply asd_sub; auto. apply (asd_mul2 e He (pr_rate p) m); auto. apply swapRemove_perm in Erm. pose proof (siteRates_get p rs pos (pr_rate p) m Ers (proj2 Erm)) as G. rewrite EC in G. specialize (G eq_refl). apply zget_In in G. pose proof (zsum_le _ _ Hrs G). lia.
Qed.
(** selection *)
Lemma same_probTable ps fps prev fprev : Forall2 (sameRates e) ps fps -> Forall (fun p => 0 <= pr_total p) ps -> 0 <= prev -> prev + zsum (map pr_total ps) <= 2 ^ 53 -> asDouble e prev fprev ->
  Forall2 (fun a b => asDouble e (fst a) (fst b)) (probTable prev ps) (fprobTable fprev fps).
Proof using He.
  intros H. revert prev fprev. induction H as [|p fp ps fps HP HF IH]; intros prev fprev HN H0 HB HA; cbn [probTable fprobTable]; [constructor|]. inversion HN as [|? ? N1 N2]; subst.
  change (zsum (map pr_total (p :: ps))) with (pr_total p + zsum (map pr_total ps)) in HB.
  assert (0 <= zsum (map pr_total ps)) by (apply zsum_nonneg; intros x Hx; apply in_map_iff in Hx; destruct Hx as (q & <- & Hq); rewrite Forall_forall in N2; auto).
  constructor; cbn [fst]; [apply asd_add; auto; [apply HP|lia]|]. apply IH; auto; try lia. apply asd_add; auto; [apply HP|lia].
Qed.
Lemma same_pickProcess ps fps u : Forall2 (sameRates e) ps fps -> Forall (fun p => 0 <= pr_total p) ps -> 0 < zsum (map pr_total ps) <= 2 ^ 53 -> fin u -> (b2 (-64) <= val u <= 1)%R ->
  exists d, 0 < dv_num d <= dv_den d /\ forall it, in_procs it = ps -> in_table it = probTable 0 ps -> fpickProcessIndex (fprobTable fzero fps) u = pickProcessIndex it d.
Proof using He.
  intros H HN HT Fu Hu. assert (FP : Forall2 (fun a b => asDouble e (fst a) (fst b)) (probTable 0 ps) (fprobTable fzero fps)) by (apply same_probTable; auto; [lia|lia|apply asd_zero]).
  assert (NE : ps <> []) by (intros ->; cbn in HT; lia).
  destruct (zget_lt (probTable 0 ps) (zlen (probTable 0 ps) - 1)) as [[t n] Et]; [rewrite probTable_len; pose proof (zlen_nonneg ps); destruct ps; [congruence|rewrite zlen_cons in *; pose proof (zlen_nonneg ps); lia]|].
  assert (EtT : t = zsum (map pr_total ps)).
  { pose proof (f_equal (option_map fst) Et) as E2. rewrite <- zget_map, probTable_fst in E2. cbn [option_map fst] in E2. apply incTable_last. rewrite probTable_len in E2. unfold zlen at 1. rewrite incTable_length, map_length. exact E2. }
  destruct (F2_zget _ _ _ _ FP _ Et) as ([ft fn] & Eft & Rt). cbn [fst] in Rt. rewrite EtT in Rt.
  destruct (pick_dev e He _ u ft HT Rt Fu Hu) as (d & Hd & HC). exists d. split; [exact Hd|]. intros it E1 E2. unfold fpickProcessIndex, pickProcessIndex, totalRate. rewrite E2, <- (F2_zlen _ _ _ FP), Eft, Et. cbn [Base.obind fst]. rewrite EtT.
  symmetry. apply (lower_bound_F2 _ _ _ _ _ FP). intros a b Hab. cbn beta. unfold pairComp. change (1 =? 0) with false. cbn [negb]. symmetry. apply HC. exact Hab.
Qed.
Lemma same_pickSite p fp u : sameRates e p fp -> (exists t, zget (pr_inc p) (zlen (pr_inc p) - 1) = Some t /\ 0 < t <= 2 ^ 53) -> fin u -> (b2 (-64) <= val u <= 1)%R ->
  exists d, 0 < dv_num d <= dv_den d /\ fpickSite fp u = pickSite p d.
Proof using He.
  intros [S1 S2 S3 S4 S5 S6 S7] (t & Et & HT) Fu Hu. destruct (F2_zget _ _ _ _ S6 _ Et) as (ft & Eft & Rt). destruct (pick_dev e He t u ft HT Rt Fu Hu) as (d & Hd & HC). exists d. split; [exact Hd|].
  unfold fpickSite, pickSite. rewrite <- (F2_zlen _ _ _ S6), Eft, Et. cbn [Base.obind]. rewrite S2. rewrite (lower_bound_F2 _ (belowDev d t) (fun x => flt x (fmul u ft)) _ _ S6); [reflexivity|]. intros a b Hab. symmetry. apply HC. exact Hab.
Qed.
End Same.
