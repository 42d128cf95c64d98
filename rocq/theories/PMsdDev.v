(** Proofs for the standard deviation of the mean square displacement. *)
From Coq Require Import Reals Qreals Psatz.
From Verif Require Import PBase MMsdDev SMsdDev.
Open Scope Z_scope.
Open Scope list_scope.

(** ** The sum over pairs *)
Definition lastSum (n K : Z) : Z := zsum (map (fun i => common n i K ^ 2) (zrange 0 (K - 1))).
Lemma lastSum_step n K : 0 <= K -> lastSum n (K + 1) = Z.max 0 (n - (K + 1)) ^ 2 + lastSum n K.
Proof.
  intros HK. unfold lastSum. replace (K + 1 - 1) with K by lia. rewrite zrange_cons by lia. replace K with (K - 1 + 1) at 1 by lia. rewrite zrange_shift. cbn [map]. rewrite zsum_cons, map_map. f_equal.
  - unfold common. f_equal. f_equal. lia.
  - f_equal. apply map_ext. intros i. unfold common. f_equal. f_equal. f_equal. lia.
Qed.
Lemma pairSum_step n K : 0 <= n -> 0 <= K -> pairSum n (K + 1) = pairSum n K + 2 * lastSum n K + n ^ 2.
Proof.
  intros Hn HK. unfold pairSum, lastSum. replace (K + 1 - 1) with K by lia. rewrite zrange_snoc by lia. rewrite map_app, zsum_app. cbn [map]. rewrite zsum_cons.
  rewrite (map_ext (fun i => zsum (map (fun j => common n i j ^ 2) (zrange 0 (K - 1) ++ [K]))) (fun i => zsum (map (fun j => common n i j ^ 2) (zrange 0 (K - 1))) + common n i K ^ 2)).
  2: { intros i. rewrite map_app, zsum_app. cbn [map]. rewrite zsum_cons. change (zsum (@nil Z)) with 0. lia. }
  rewrite zsum_map_add, map_app, zsum_app. cbn [map]. rewrite zsum_cons. rewrite (map_ext (fun j => common n K j ^ 2) (fun i => common n i K ^ 2)).
  2: { intros i. unfold common. f_equal. f_equal. f_equal. lia. }
  replace (common n K K) with n by (unfold common; lia). change (zsum (@nil Z)) with 0. lia.
Qed.
Lemma lastSum_closed n : 0 <= n -> forall K, 0 <= K -> 6 * lastSum n K = if K <=? n then K * (6 * n ^ 2 - 6 * n * (K + 1) + (K + 1) * (2 * K + 1)) else n * (2 * n ^ 2 - 3 * n + 1).
Proof.
  intros Hn. apply natlike_ind.
  - replace (0 <=? n) with true by lia. reflexivity.
  - intros K HK IH. unfold Z.succ. rewrite lastSum_step by lia. rewrite Z.mul_add_distr_l, IH. clear IH. destruct (Z.leb_spec (K + 1) n) as [H|H].
    + replace (K <=? n) with true by lia. rewrite Z.max_r by lia. ring.
    + rewrite Z.max_l by lia. destruct (Z.leb_spec K n) as [H'|H']; [|ring]. assert (K = n) by lia. subst K. ring.
Qed.
Lemma pairSum_closed n : 0 <= n -> forall K, 0 <= K -> 6 * pairSum n K = if n <=? K then n * (4 * n ^ 2 * K + 2 * K + n - n ^ 3) else 6 * n ^ 2 * K ^ 2 + K * (K ^ 3 - 4 * n * K ^ 2 + 4 * n - K).
Proof.
  intros Hn. apply natlike_ind.
  - destruct (Z.leb_spec n 0) as [H|H]; [assert (n = 0) by lia; subst n; reflexivity|]. unfold pairSum. change (zrange 0 (0 - 1)) with (@nil Z). cbn [map]. unfold zsum. cbn [fold_right]. ring.
  - intros K HK IH. unfold Z.succ. rewrite pairSum_step by lia. pose proof (lastSum_closed n Hn K HK) as L. replace (6 * (pairSum n K + 2 * lastSum n K + n ^ 2)) with (6 * pairSum n K + 2 * (6 * lastSum n K) + 6 * n ^ 2) by ring. rewrite IH, L. clear IH L.
    destruct (Z.leb_spec n (K + 1)) as [H|H].
    + destruct (Z.leb_spec n K) as [H1|H1], (Z.leb_spec K n) as [H2|H2]; try (exfalso; lia).
      * assert (K = n) by lia. subst K. ring.
      * ring.
      * assert (n = K + 1) by lia. subst n. ring.
    + replace (n <=? K) with false by lia. replace (K <=? n) with true by lia. ring.
Qed.

(** ** The factor *)
Open Scope R_scope.
Lemma errorFactor_pos n K : 0 < n -> 1 <= K -> 0 < errorFactor n K.
Proof.
  intros Hn HK. unfold errorFactor. destruct (Rle_dec n K) as [H|H].
  - apply Rdiv_lt_0_compat; [|apply Rmult_lt_0_compat; [lra|apply pow_lt; lra]]. assert (n ^ 3 <= n ^ 2 * K) by (replace (n ^ 3) with (n ^ 2 * n) by ring; apply Rmult_le_compat_l; [apply pow_le; lra|exact H]). assert (0 < n ^ 2 * K) by (apply Rmult_lt_0_compat; [apply pow_lt|]; lra). lra.
  - apply Rnot_le_lt in H. assert (HP : 0 < 6 * n ^ 2 * K) by (apply Rmult_lt_0_compat; [|lra]; apply Rmult_lt_0_compat; [lra|apply pow_lt; lra]).
    replace (1 + (K ^ 3 - 4 * n * K ^ 2 + 4 * n - K) / (6 * n ^ 2 * K)) with ((6 * n ^ 2 * K + K ^ 3 - 4 * n * K ^ 2 + 4 * n - K) / (6 * n ^ 2 * K)) by (field; lra).
    apply Rdiv_lt_0_compat; [|exact HP]. assert (n * K ^ 2 <= n ^ 2 * K). { replace (n * K ^ 2) with (n * K * K) by ring. replace (n ^ 2 * K) with (n * K * n) by ring. apply Rmult_le_compat_l; [|lra]. apply Rmult_le_pos; lra. }
    assert (K <= K ^ 3). { replace (K ^ 3) with (K * (K * K)) by ring. rewrite <- (Rmult_1_r K) at 1. apply Rmult_le_compat_l; [lra|]. replace 1 with (1 * 1) by ring. apply Rmult_le_compat; lra. } lra.
Qed.
Lemma devFactor_ok n K : 0 < n -> (0 < K)%Z -> 0 <= devFactor n K /\ devFactor n K ^ 2 = 2 * errorFactor n (IZR K).
Proof.
  intros Hn HK. assert (HK1 : 1 <= IZR K) by (apply IZR_le; lia). pose proof (errorFactor_pos n (IZR K) Hn HK1) as HP. unfold devFactor. unfold errorFactor in *. destruct (Rle_dec n (IZR K)) as [H|H].
  - replace ((4 * (n * n) * IZR K + 2 * IZR K + n - n * n * n) / (n * 6 * (IZR K * IZR K))) with ((4 * n ^ 2 * IZR K + 2 * IZR K + n - n ^ 3) / (6 * n * IZR K ^ 2)) by (field; lra).
    split; [apply Rmult_le_pos; apply sqrt_pos|]. rewrite Rpow_mult_distr, !pow2_sqrt by lra. reflexivity.
  - replace (1 + (IZR K * IZR K * IZR K - 4 * n * (IZR K * IZR K) + 4 * n - IZR K) / (6 * (n * n) * IZR K)) with (1 + (IZR K ^ 3 - 4 * n * IZR K ^ 2 + 4 * n - IZR K) / (6 * n ^ 2 * IZR K)) by (field; lra).
    split; [apply Rmult_le_pos; apply sqrt_pos|]. rewrite Rpow_mult_distr, !pow2_sqrt by lra. reflexivity.
Qed.
Lemma dimFactor_ok r x : 0 <= x -> 0 <= dimFactor r x /\ dimFactor r x ^ 2 * dimensions r = x ^ 2.
Proof.
  intros Hx. unfold dimFactor, dimensions. destruct (r <? 3)%Z; [split; [exact Hx|ring]|]. destruct (r <? 6)%Z.
  - split; [apply Rmult_le_pos; [exact Hx|apply sqrt_pos]|]. rewrite Rpow_mult_distr, pow2_sqrt by lra. field.
  - split; [apply Rmult_le_pos; [exact Hx|apply sqrt_pos]|]. rewrite Rpow_mult_distr, pow2_sqrt by lra. field.
Qed.
Close Scope R_scope.
