(** Proofs about total rates in double precision. *)
From Coq Require Import Reals Psatz.
From Flocq Require Import Core BinarySingleNaN.
From Verif Require Import PBase SFloat PFloat PProcess.
From Coq Require Import ZifyBool.
Open Scope list_scope.
Open Scope Z_scope.

Notation rsum := (fold_right Rplus 0%R).
Lemma rsum_perm l m : Permutation l m -> rsum l = rsum m.
Proof. induction 1; cbn; try congruence; ring. Qed.
Lemma rsum_app l m : rsum (l ++ m) = (rsum l + rsum m)%R.
Proof. induction l; cbn; [ring|]. rewrite IHl. ring. Qed.

Lemma overflow_inf s : is_finite_SF (binary_overflow 53 1024 mode_NE s) = false.
Proof. reflexivity. Qed.
Lemma fin_SF (x : f64) : is_finite_SF (B2SF x) = is_finite x.
Proof. destruct x; reflexivity. Qed.
Lemma add_fin x y : fin x -> fin y -> fin (fadd x y) -> val (fadd x y) = rn (val x + val y).
Proof.
  intros Hx Hy HF. destruct (Rlt_or_le (Rabs (rn (val x + val y))) (b2 1024)) as [H|H]; [apply add_val; assumption|].
  pose proof (Bplus_correct 53 1024 _ _ mode_NE x y Hx Hy) as C. change (round radix2 (SpecFloat.fexp 53 1024) (round_mode mode_NE) (val x + val y)) with (rn (val x + val y)) in C.
  rewrite Rlt_bool_false in C by exact H. destruct C as [C _]. unfold fin, fadd in HF. rewrite <- fin_SF, C in HF. discriminate.
Qed.
Lemma sub_fin x y : fin x -> fin y -> fin (fsub x y) -> val (fsub x y) = rn (val x - val y).
Proof.
  intros Hx Hy HF. destruct (Rlt_or_le (Rabs (rn (val x - val y))) (b2 1024)) as [H|H]; [apply sub_val; assumption|].
  pose proof (Bminus_correct 53 1024 _ _ mode_NE x y Hx Hy) as C. change (round radix2 (SpecFloat.fexp 53 1024) (round_mode mode_NE) (val x - val y)) with (rn (val x - val y)) in C.
  rewrite Rlt_bool_false in C by exact H. destruct C as [C _]. unfold fin, fsub in HF. rewrite <- fin_SF, C in HF. discriminate.
Qed.
Lemma fin_lt (x : f64) : (Rabs (val x) < b2 1024)%R.
Proof. apply (abs_B2R_lt_emax 53 1024). Qed.
Lemma one_val : val fone = 1%R /\ fin fone.
Proof. destruct (int_val 1) as [H1 H2]; [cbn; lia|]. split; [exact H1|exact H2]. Qed.
Lemma mul_one x : fin x -> val (fmul fone x) = val x /\ fin (fmul fone x) /\ val (fmul x fone) = val x /\ fin (fmul x fone).
Proof.
  intros Hx. destruct one_val as [V1 F1]. pose proof (fin_lt x) as HL.
  destruct (mul_val fone x F1 Hx) as [A1 A2]; [rewrite V1, Rmult_1_l, (rn_id _ (F_val x)); exact HL|]. destruct (mul_val x fone Hx F1) as [A3 A4]; [rewrite V1, Rmult_1_r, (rn_id _ (F_val x)); exact HL|].
  rewrite A1, A3, V1, Rmult_1_l, Rmult_1_r, (rn_id _ (F_val x)). auto.
Qed.

(** members of a process with a history *)
Record fpWF (rateOK : f64 -> Prop) (p : fproc) : Prop := {
  fw_rate : rateOK (fp_rate p);
  fw_mult : fp_mult p = map (fun _ => fone) (fp_sites p);
  fw_len : fp_custom p = true -> length (fp_srates p) = length (fp_sites p);
  fw_srates : fp_custom p = true -> Forall rateOK (fp_srates p) }.
(** the change of one operation *)
Lemma add_spec (rateOK : f64 -> Prop) p index rate : (forall r, rateOK r -> fin r) -> fpWF rateOK p -> rateOK rate -> let p' := faddSite p index rate fone in
  fpWF rateOK p' /\ exists r, rateOK r /\ fp_total p' = fadd (fp_total p) (fmul fone r) /\ exactTotal p' = (exactTotal p + val r)%R.
Proof.
  intros HF [W1 W2 W3 W4] HR p'. unfold p', faddSite, exactTotal, listedRates. destruct (fp_custom p) eqn:EC; cbn [fp_custom fp_srates fp_sites fp_rate fp_total fp_mult].
  - split; [constructor; cbn; auto|exists rate; split; [exact HR|]; split; [reflexivity|]].
    + rewrite map_app, W2. reflexivity.
    + intros _. rewrite !app_length, W3; auto.
    + intros _. apply Forall_app. split; auto.
    + rewrite map_app, rsum_app. cbn [map fold_right]. rewrite Rplus_0_r. reflexivity.
  - split; [constructor; cbn; auto; try discriminate|exists (fp_rate p); split; [exact W1|]; split; [reflexivity|]].
    + rewrite map_app, W2. reflexivity.
    + rewrite !map_app, rsum_app. cbn [map fold_right]. rewrite Rplus_0_r. reflexivity.
Qed.
Lemma remove_spec (rateOK : f64 -> Prop) p index p' : (forall r, rateOK r -> fin r) -> fpWF rateOK p -> fremoveSite p index = Some p' ->
  fpWF rateOK p' /\ exists r t, rateOK r /\ fp_total p' = fsub (fp_total p) t /\ (t = fmul r fone \/ t = fmul fone r) /\ exactTotal p' = (exactTotal p - val r)%R /\ fp_custom p' = fp_custom p /\ Permutation (listedRates p) (r :: listedRates p').
Proof.
  intros HF [W1 W2 W3 W4] H. unfold fremoveSite in H. set (pos := zfind (fp_sites p) index) in *. ob H as rs Es. destruct rs as [sites' s]. cbn [fst snd] in H. destruct (swapRemove_perm _ _ _ _ Es) as [PS GS].
  assert (HM : exists mult', swapRemove (fp_mult p) pos = Some (mult', fone) /\ mult' = map (fun _ => fone) sites').
  { rewrite W2. assert (G : zget (map (fun _ : Z => fone) (fp_sites p)) pos = Some fone) by (rewrite zget_map, GS; reflexivity).
    destruct (swapRemove_spec _ _ _ G) as (m' & E & _). exists m'. split; [exact E|]. destruct (swapRemove_perm _ _ _ _ E) as [PM _].
    assert (HA : forall x, In x m' -> x = fone) by (intros x Hx; assert (Hi : In x (map (fun _ : Z => fone) (fp_sites p))) by (apply (Permutation_in _ (Permutation_sym PM)); right; exact Hx); apply in_map_iff in Hi; destruct Hi as (? & <- & _); reflexivity).
    assert (HL : length m' = length sites') by (apply Permutation_length in PM, PS; rewrite map_length in PM; cbn in PM, PS; lia).
    revert HL HA. clear. revert sites'. induction m' as [|a m IH]; intros [|b l] HL HA; try discriminate HL; [reflexivity|]. cbn. rewrite (HA a (or_introl eq_refl)). f_equal. apply IH; [injection HL; auto|intros; apply HA; right; assumption]. }
  destruct HM as (mult' & EM & Hm'). destruct (fp_custom p) eqn:EC.
  - ob H as rr Er. destruct rr as [srates' r]. rewrite EM in H. cbn [Base.obind fst snd] in H. injection H as <-. destruct (swapRemove_perm _ _ _ _ Er) as [PR GR].
    assert (HR : rateOK r) by (pose proof (W4 eq_refl) as Q; rewrite Forall_forall in Q; apply Q; apply (Permutation_in _ (Permutation_sym PR)); left; reflexivity).
    split; [constructor; cbn; auto|].
    + intros _. apply Permutation_length in PR, PS. cbn in PR, PS. rewrite (W3 eq_refl) in PR. lia.
    + intros _. rewrite Forall_forall. intros x Hx. pose proof (W4 eq_refl) as Q. rewrite Forall_forall in Q. apply Q. apply (Permutation_in _ (Permutation_sym PR)). right. exact Hx.
    + exists r, (fmul r fone). unfold exactTotal, listedRates. rewrite EC. cbn [fp_custom fp_srates fp_total fp_sites fp_rate]. split; [exact HR|]. split; [reflexivity|]. split; [auto|].
      split; [rewrite (rsum_perm _ _ (Permutation_map (@B2R 53 1024) PR)); cbn [map fold_right]; ring|]. split; [reflexivity|exact PR].
  - rewrite EM in H. cbn [Base.obind fst snd] in H. injection H as <-. split; [constructor; cbn; auto; discriminate|].
    exists (fp_rate p), (fmul fone (fp_rate p)). unfold exactTotal, listedRates. rewrite EC. cbn [fp_custom fp_srates fp_total fp_sites fp_rate]. split; [exact W1|]. split; [reflexivity|]. split; [auto|].
    pose proof (Permutation_map (fun _ : Z => fp_rate p) PS) as PR. cbn [map] in PR.
    split; [rewrite (rsum_perm _ _ (Permutation_map (@B2R 53 1024) PR)); cbn [map fold_right]; ring|]. split; [reflexivity|exact PR].
Qed.
Lemma history_WF (rateOK : f64 -> Prop) ok n p : (forall r, rateOK r -> fin r) -> history rateOK ok n p -> fpWF rateOK p /\ 0 <= n.
Proof.
  intros HF. induction 1 as [custom rate HR|n p index rate H IH HR HO|n p index p' H IH HR HO|n p H IH|n p p' H IH HT].
  - split; [constructor; cbn; auto|lia].
  - split; [apply (add_spec rateOK p index rate HF (proj1 IH) HR)|lia].
  - split; [apply (remove_spec rateOK p index p' HF (proj1 IH) HR)|lia].
  - destruct IH as [[W1 W2 W3 W4] _]. split; [constructor; cbn; auto|lia].
  - destruct IH as [[W1 W2 W3 W4] Hn]. split; [|exact Hn]. unfold fupdateRateTable in HT. ob HT as rs Ers. injection HT as <-. constructor; cbn; auto.
Qed.

(** at most the given rounding error per operation *)
Theorem drift_bound k n p : -1021 <= k -> history fin (fun p => fin (fp_total p) /\ (Rabs (val (fp_total p)) < b2 k)%R) n p ->
  fin (fp_total p) /\ (Rabs (val (fp_total p) - exactTotal p) <= IZR n * b2 (k - 54))%R.
Proof.
  intros Hk. induction 1 as [custom rate HR|n p index rate H IH HR HO|n p index p' H IH HR HO|n p H IH|n p p' H IH HT].
  - split; [reflexivity|]. cbn. replace (exactTotal _) with 0%R by (unfold exactTotal, listedRates; cbn; destruct custom; reflexivity). rewrite Rminus_0_r, Rabs_R0. lra.
  - destruct (history_WF _ _ _ _ (fun r Hr => Hr) H) as [W Hn]. destruct (add_spec fin p index rate (fun r Hr => Hr) W HR) as (_ & r & Hr & ET & EX). cbn zeta in *.
    destruct HO as [HO1 HO2]. split; [exact HO1|]. rewrite EX, ET in *. destruct IH as [IF IB]. destruct (mul_one r Hr) as (M1 & M2 & _). pose proof (add_fin _ _ IF M2 HO1) as EV. rewrite EV in *. rewrite M1 in *.
    pose proof (rn_err2 _ k HO2 Hk) as ER. rewrite plus_IZR, Rmult_plus_distr_r, Rmult_1_l.
    replace (rn (val (fp_total p) + val r) - (exactTotal p + val r))%R with ((val (fp_total p) - exactTotal p) + (rn (val (fp_total p) + val r) - (val (fp_total p) + val r)))%R by ring.
    eapply Rle_trans; [apply Rabs_triang|]. apply Rplus_le_compat; assumption.
  - destruct (history_WF _ _ _ _ (fun r Hr => Hr) H) as [W Hn]. destruct (remove_spec fin p index p' (fun r Hr => Hr) W HR) as (_ & r & t & Hr & ET & Ht & EX & _).
    destruct HO as [HO1 HO2]. split; [exact HO1|]. rewrite EX, ET in *. destruct IH as [IF IB]. destruct (mul_one r Hr) as (M1 & M2 & M3 & M4).
    assert (Ft : fin t) by (destruct Ht as [->| ->]; assumption). assert (Vt : val t = val r) by (destruct Ht as [->| ->]; assumption).
    pose proof (sub_fin _ _ IF Ft HO1) as EV. rewrite EV in *. rewrite Vt in *.
    pose proof (rn_err2 _ k HO2 Hk) as ER. rewrite plus_IZR, Rmult_plus_distr_r, Rmult_1_l.
    replace (rn (val (fp_total p) - val r) - (exactTotal p - val r))%R with ((val (fp_total p) - exactTotal p) + (rn (val (fp_total p) - val r) - (val (fp_total p) - val r)))%R by ring.
    eapply Rle_trans; [apply Rabs_triang|]. apply Rplus_le_compat; assumption.
  - split; [reflexivity|]. cbn. replace (exactTotal _) with 0%R by (unfold exactTotal, listedRates; cbn; destruct (fp_custom p); reflexivity). rewrite Rminus_0_r, Rabs_R0. lra.
  - unfold fupdateRateTable in HT. ob HT as rs Ers. injection HT as <-. exact IH.
Qed.

(** rates on a grid: no rounding *)
Definition onGrid (e : Z) (r : f64) : Prop := exists z, 0 <= z /\ asDouble e z r.
Lemma grid_sum e l : Forall (onGrid e) l -> exists z, 0 <= z /\ rsum (map val l) = (IZR z * b2 e)%R.
Proof.
  induction 1 as [|r l (z & Hz & _ & Er) HF (s & Hs & Es)]; [exists 0; split; [lia|cbn; ring]|]. exists (z + s). split; [lia|]. cbn [map fold_right]. rewrite Er, Es, plus_IZR. ring.
Qed.
Lemma listed_grid e p : fpWF (onGrid e) p -> Forall (onGrid e) (listedRates p).
Proof.
  intros [W1 W2 W3 W4]. unfold listedRates. destruct (fp_custom p); [auto|]. rewrite Forall_forall. intros x Hx. apply in_map_iff in Hx. destruct Hx as (_ & <- & _). exact W1.
Qed.
Lemma grid_exact e z : -1074 <= e <= 900 -> 0 <= z <= 2 ^ 53 -> rn (IZR z * b2 e) = (IZR z * b2 e)%R /\ (Rabs (rn (IZR z * b2 e)) < b2 1024)%R.
Proof.
  intros He Hz. assert (E : rn (IZR z * b2 e) = (IZR z * b2 e)%R) by (apply rn_id, F_grid; lia). split; [exact E|]. rewrite E, Rabs_mult, <- abs_IZR, (Rabs_pos_eq (b2 e)) by apply bpow_ge_0.
  apply Rle_lt_trans with (b2 53 * b2 e)%R; [apply Rmult_le_compat_r; [apply bpow_ge_0|change (b2 53) with (IZR (2 ^ 53)); apply IZR_le; lia]|]. rewrite <- bpow_plus. apply bpow_lt. lia.
Qed.
Lemma grid_inj e a b : (IZR a * b2 e = IZR b * b2 e)%R -> a = b.
Proof. intros H. apply eq_IZR. apply (Rmult_eq_reg_r (b2 e)); [exact H|]. pose proof (bpow_gt_0 radix2 e). lra. Qed.
Lemma grid_le e a b : (IZR a * b2 e <= IZR b * b2 e)%R -> a <= b.
Proof. intros H. apply le_IZR. apply (Rmult_le_reg_r (b2 e)); [apply bpow_gt_0|exact H]. Qed.
Theorem grid_total e n p : -1074 <= e <= 900 -> history (onGrid e) (fun p => (exactTotal p <= IZR (2 ^ 53) * b2 e)%R) n p -> fin (fp_total p) /\ val (fp_total p) = exactTotal p /\ (exactTotal p <= IZR (2 ^ 53) * b2 e)%R.
Proof.
  intros He. assert (GF : forall r, onGrid e r -> fin r) by (intros r (z & _ & H & _); exact H).
  assert (Z0 : (0 <= IZR (2 ^ 53) * b2 e)%R) by (apply Rmult_le_pos; [apply IZR_le; lia|apply bpow_ge_0]).
  induction 1 as [custom rate HR|n p index rate H IH HR HO|n p index p' H IH HR HO|n p H IH|n p p' H IH HT].
  - replace (exactTotal _) with 0%R by (unfold exactTotal, listedRates; cbn; destruct custom; reflexivity). cbn [fp_total]. split; [reflexivity|]. split; [reflexivity|exact Z0].
  - destruct (history_WF _ _ _ _ GF H) as [W Hn]. destruct (add_spec _ p index rate GF W HR) as (W' & r & Hr & ET & EX). cbn zeta in *. destruct IH as (IF & IV & IB).
    destruct (mul_one r (GF r Hr)) as (M1 & M2 & _). destruct (grid_sum e _ (listed_grid e _ W')) as (s & Hs & Es). change (rsum (map val (listedRates (faddSite p index rate fone)))) with (exactTotal (faddSite p index rate fone)) in Es.
    assert (Hb : s <= 2 ^ 53) by (apply (grid_le e); rewrite <- Es; exact HO). destruct (grid_exact e s He) as [G1 G2]; [lia|].
    destruct (add_val (fp_total p) (fmul fone r) IF M2) as [A1 A2]; [rewrite M1, IV, <- EX, Es; exact G2|]. rewrite ET. split; [exact A2|]. split; [|exact HO]. rewrite A1, M1, IV, <- EX, Es. exact G1.
  - destruct (history_WF _ _ _ _ GF H) as [W Hn]. destruct (remove_spec _ p index p' GF W HR) as (W' & r & t & Hr & ET & Ht & EX & _). destruct IH as (IF & IV & IB).
    destruct (mul_one r (GF r Hr)) as (M1 & M2 & M3 & M4). assert (Ft : fin t) by (destruct Ht as [->| ->]; assumption). assert (Vt : val t = val r) by (destruct Ht as [->| ->]; assumption).
    destruct (grid_sum e _ (listed_grid e _ W')) as (s & Hs & Es). change (rsum (map val (listedRates p'))) with (exactTotal p') in Es.
    assert (Hb : s <= 2 ^ 53) by (apply (grid_le e); rewrite <- Es; exact HO). destruct (grid_exact e s He) as [G1 G2]; [lia|].
    destruct (sub_val (fp_total p) t IF Ft) as [A1 A2]; [rewrite Vt, IV, <- EX, Es; exact G2|]. rewrite ET. split; [exact A2|]. split; [|exact HO]. rewrite A1, Vt, IV, <- EX, Es. exact G1.
  - replace (exactTotal _) with 0%R by (unfold exactTotal, listedRates; cbn; destruct (fp_custom p); reflexivity). cbn [fp_total fclearSites]. split; [reflexivity|]. split; [reflexivity|exact Z0].
  - unfold fupdateRateTable in HT. ob HT as rs Ers. injection HT as <-. exact IH.
Qed.
