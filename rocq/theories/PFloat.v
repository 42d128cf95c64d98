(** Lemmas about binary64 arithmetic. *)
From Coq Require Import Reals Psatz.
From Flocq Require Import Core BinarySingleNaN Relative.
From Verif Require Import PBase SFloat.
From Coq Require Import ZifyBool.
Open Scope list_scope.
Open Scope Z_scope.

Notation e64 := (FLT_exp (-1074) 53).
Notation b2 := (bpow radix2).
Definition rn (x : R) : R := round radix2 e64 ZnearestE x.
Notation inF := (generic_format radix2 e64).

Lemma F_val (x : f64) : inF (val x).
Proof. apply (generic_format_B2R 53 1024). Qed.
Lemma rn_id x : inF x -> rn x = x.
Proof. intros H. apply round_generic; [apply valid_rnd_N|exact H]. Qed.
Lemma rn_le x y : (x <= y)%R -> (rn x <= rn y)%R.
Proof. apply round_le; [apply FLT_exp_valid; reflexivity|apply valid_rnd_N]. Qed.
Lemma F_rn x : inF (rn x).
Proof. apply generic_format_round; [apply FLT_exp_valid; reflexivity|apply valid_rnd_N]. Qed.
Lemma rn_err x k : (Rabs x < b2 k)%R -> -1021 <= k -> (Rabs (rn x - x) <= b2 (k - 54))%R.
Proof.
  intros H Hk. pose proof (error_le_half_ulp radix2 e64 (fun x => negb (Z.even x)) x) as E.
  eapply Rle_trans; [exact E|]. replace (b2 (k - 54)) with (/2 * b2 (k - 53))%R.
  - apply Rmult_le_compat_l; [lra|]. destruct (Req_dec x 0) as [->|HX].
    + rewrite ulp_FLT_0 by reflexivity. apply bpow_le. lia.
    + rewrite ulp_neq_0 by exact HX. apply bpow_le. unfold cexp, FLT_exp. pose proof (mag_le_bpow radix2 x k HX H). lia.
  - change (/2)%R with (b2 (-1)). rewrite <- bpow_plus. f_equal. lia.
Qed.
Lemma rn_err2 x k : (Rabs (rn x) < b2 k)%R -> -1021 <= k -> (Rabs (rn x - x) <= b2 (k - 54))%R.
Proof.
  intros H Hk. pose proof (error_le_half_ulp_round radix2 e64 (fun x => negb (Z.even x)) x) as E.
  eapply Rle_trans; [exact E|]. fold (rn x). replace (b2 (k - 54)) with (/2 * b2 (k - 53))%R.
  - apply Rmult_le_compat_l; [lra|]. destruct (Req_dec (rn x) 0) as [HX|HX].
    + change (round radix2 e64 ZnearestE x) with (rn x). rewrite HX. rewrite ulp_FLT_0 by reflexivity. apply bpow_le. lia.
    + change (round radix2 e64 ZnearestE x) with (rn x). rewrite ulp_neq_0 by exact HX. apply bpow_le. unfold cexp, FLT_exp. pose proof (mag_le_bpow radix2 _ k HX H). lia.
  - change (/2)%R with (b2 (-1)). rewrite <- bpow_plus. f_equal. lia.
Qed.
Lemma F_grid z e : -1074 <= e -> Z.abs z <= 2 ^ 53 -> inF (IZR z * b2 e).
Proof.
  intros He Hz. destruct (Z.eq_dec (Z.abs z) (2 ^ 53)) as [E|N].
  - assert (IZR z * b2 e = IZR (Z.sgn z) * b2 (53 + e))%R as ->.
    { rewrite bpow_plus, <- Rmult_assoc. f_equal. change (b2 53) with (IZR (2 ^ 53)). rewrite <- mult_IZR. f_equal. rewrite <- E, Z.mul_comm, Z.abs_sgn. reflexivity. }
    apply generic_format_FLT. exists (Float radix2 (Z.sgn z) (53 + e)); [reflexivity| |cbn [Fexp]; lia]. change (Z.abs (Z.sgn z) < 2 ^ 53). clear E. destruct z; reflexivity.
  - apply generic_format_FLT. exists (Float radix2 z e); [reflexivity| |exact He]. change (Z.abs z < 2 ^ 53). lia.
Qed.
Lemma F_int z : Z.abs z <= 2 ^ 53 -> inF (IZR z).
Proof. intros H. replace (IZR z) with (IZR z * b2 0)%R by (cbn; ring). apply F_grid; lia. Qed.

Lemma sub_val x y : fin x -> fin y -> (Rabs (rn (val x - val y)) < b2 1024)%R -> val (fsub x y) = rn (val x - val y) /\ fin (fsub x y).
Proof. intros Hx Hy HB. pose proof (Bminus_correct 53 1024 _ _ mode_NE x y Hx Hy) as H. change (round radix2 (SpecFloat.fexp 53 1024) (round_mode mode_NE) (val x - val y)) with (rn (val x - val y)) in H. rewrite Rlt_bool_true in H by exact HB. split; apply H. Qed.
Lemma add_val x y : fin x -> fin y -> (Rabs (rn (val x + val y)) < b2 1024)%R -> val (fadd x y) = rn (val x + val y) /\ fin (fadd x y).
Proof. intros Hx Hy HB. pose proof (Bplus_correct 53 1024 _ _ mode_NE x y Hx Hy) as H. change (round radix2 (SpecFloat.fexp 53 1024) (round_mode mode_NE) (val x + val y)) with (rn (val x + val y)) in H. rewrite Rlt_bool_true in H by exact HB. split; apply H. Qed.
Lemma mul_val x y : fin x -> fin y -> (Rabs (rn (val x * val y)) < b2 1024)%R -> val (fmul x y) = rn (val x * val y) /\ fin (fmul x y).
Proof. intros Hx Hy HB. pose proof (Bmult_correct 53 1024 _ _ mode_NE x y) as H. change (round radix2 (SpecFloat.fexp 53 1024) (round_mode mode_NE) (val x * val y)) with (rn (val x * val y)) in H. rewrite Rlt_bool_true in H by exact HB. split; [apply H|]. unfold fin, fmul in *. destruct H as (_ & H & _). rewrite H, Hx, Hy. reflexivity. Qed.
Lemma div_val x y : fin x -> val y <> 0%R -> (Rabs (rn (val x / val y)) < b2 1024)%R -> val (fdiv x y) = rn (val x / val y) /\ fin (fdiv x y).
Proof. intros Hx Hy HB. pose proof (Bdiv_correct 53 1024 _ _ mode_NE x y Hy) as H. change (round radix2 (SpecFloat.fexp 53 1024) (round_mode mode_NE) (val x / val y)) with (rn (val x / val y)) in H. rewrite Rlt_bool_true in H by exact HB. split; [apply H|]. unfold fin, fdiv in *. destruct H as (_ & H & _). rewrite H, Hx. reflexivity. Qed.
Lemma lit_val m e : -1074 <= e -> Z.abs m <= 2 ^ 53 -> e <= 900 -> val (flit m e) = (IZR m * b2 e)%R /\ fin (flit m e).
Proof.
  intros He Hm H9. pose proof (binary_normalize_correct 53 1024 prec64 emax64 mode_NE m e false) as H. cbn zeta in H. change (F2R (Float radix2 m e)) with (IZR m * b2 e)%R in H.
  change (round radix2 (SpecFloat.fexp 53 1024) (round_mode mode_NE) (IZR m * b2 e)) with (rn (IZR m * b2 e)) in H. rewrite (rn_id _ (F_grid m e He Hm)) in H.
  rewrite Rlt_bool_true in H; [split; apply H|]. rewrite Rabs_mult, <- abs_IZR, (Rabs_pos_eq (b2 e)) by apply bpow_ge_0.
  apply Rle_lt_trans with (b2 53 * b2 e)%R; [apply Rmult_le_compat_r; [apply bpow_ge_0|change (b2 53) with (IZR (2 ^ 53)); apply IZR_le; exact Hm]|]. rewrite <- bpow_plus. apply bpow_lt. lia.
Qed.
Lemma int_val n : Z.abs n <= 2 ^ 53 -> val (ofInt n) = IZR n /\ fin (ofInt n).
Proof. intros H. destruct (lit_val n 0) as [H1 H2]; try lia. split; [|exact H2]. unfold ofInt. rewrite H1. cbn. ring. Qed.
Lemma toInt_floor x q : (0 <= q)%Z -> (IZR q <= val x < IZR q + 1)%R -> toInt x = q.
Proof.
  intros Hq H. unfold toInt. apply eq_IZR. rewrite Btrunc_correct by exact emax64. rewrite round_FIX_IZR. f_equal. rewrite Ztrunc_floor.
  - apply Zfloor_imp. rewrite plus_IZR. exact H.
  - apply Rle_trans with (IZR q); [apply IZR_le; exact Hq|apply H].
Qed.
Definition eps : R := (4835703278458517 * b2 (-82))%R.
Lemma eps_val : val feps = eps /\ fin feps.
Proof. apply lit_val; cbn; lia. Qed.
Lemma eps_bounds : (b2 (-30) < eps < b2 (-29))%R.
Proof.
  unfold eps. replace (b2 (-30)) with (IZR (2 ^ 52) * b2 (-82))%R; [replace (b2 (-29)) with (IZR (2 ^ 53) * b2 (-82))%R|].
  - split; apply Rmult_lt_compat_r; try apply bpow_gt_0; apply IZR_lt; reflexivity.
  - change (IZR (2 ^ 53)) with (b2 53). rewrite <- bpow_plus. reflexivity.
  - change (IZR (2 ^ 52)) with (b2 52). rewrite <- bpow_plus. reflexivity.
Qed.
Lemma eps_small : (0 < eps < 1)%R.
Proof. pose proof eps_bounds as [H1 H2]. split; [eapply Rlt_trans; [apply (bpow_gt_0 radix2 (-30))|exact H1]|]. eapply Rlt_trans; [exact H2|]. change 1%R with (b2 0). apply bpow_lt. lia. Qed.
Lemma small_abs x k : (Rabs x <= IZR (2 ^ 62))%R -> 62 < k -> (Rabs x < b2 k)%R.
Proof. intros H Hk. eapply Rle_lt_trans; [exact H|]. change (IZR (2 ^ 62)) with (b2 62). apply bpow_lt. exact Hk. Qed.

(** idx - eps *)
Lemma sub_eps n : 1 <= n <= 2 ^ 53 -> fin (fsub (ofInt n) feps) /\ (IZR (n - 1) <= val (fsub (ofInt n) feps) <= IZR n)%R /\ val (fsub (ofInt n) feps) = rn (IZR n - eps).
Proof.
  intros Hn. destruct (int_val n) as [V1 F1]; [lia|]. destruct eps_val as [V2 F2]. pose proof eps_small as ES.
  assert (HB : (IZR (n - 1) <= rn (IZR n - eps) <= IZR n)%R).
  { split.
    - rewrite <- (rn_id (IZR (n - 1))) by (apply F_int; lia). apply rn_le. rewrite minus_IZR. lra.
    - rewrite <- (rn_id (IZR n)) at 2 by (apply F_int; lia). apply rn_le. lra. }
  destruct (sub_val (ofInt n) feps F1 F2) as [V F].
  { rewrite V1, V2. apply small_abs; [|lia]. rewrite Rabs_pos_eq by (eapply Rle_trans; [|apply HB]; apply IZR_le; lia). eapply Rle_trans; [apply HB|]. apply IZR_le. lia. }
  rewrite V, V1, V2. auto.
Qed.
Lemma sub_eps_below n : 1 <= n <= 2 ^ 24 -> (val (fsub (ofInt n) feps) < IZR n)%R.
Proof.
  intros Hn. destruct (sub_eps n) as (_ & _ & ->); [lia|]. pose proof eps_bounds as [E1 _]. pose proof eps_small as ES.
  assert (HA : (Rabs (IZR n - eps) < b2 24)%R).
  { assert (1 <= IZR n)%R by (apply IZR_le; lia). rewrite Rabs_pos_eq by lra. assert (IZR n <= b2 24)%R by (change (b2 24) with (IZR (2 ^ 24)); apply IZR_le; lia). lra. }
  pose proof (rn_err _ 24 HA) as E. change (24 - 54) with (-30) in E. specialize (E ltac:(lia)). apply Rabs_le_inv in E. lra.
Qed.
(** a floating point number below m f, divided by f, is rounded to a number below m *)
Lemma div_below a f m : inF a -> (0 <= a)%R -> 1 <= f -> 1 <= m -> m * f <= 2 ^ 53 -> (a < IZR (m * f))%R -> (rn (a / IZR f) < IZR m)%R.
Proof.
  intros Fa Ha Hf Hm HN Hlt. assert (Hf' : (0 < IZR f)%R) by (apply IZR_lt; lia). assert (Hm' : (0 < IZR m)%R) by (apply IZR_lt; lia).
  destruct (Rle_or_lt (b2 (-100)) (a / IZR f)) as [BG|SM].
  - pose proof (relative_error_N_FLT radix2 (-1074) 53 eq_refl (fun x => negb (Z.even x)) (a / IZR f)) as E.
    assert (Hz : (0 <= a / IZR f)%R) by (apply Rle_mult_inv_pos; lra). rewrite Rabs_pos_eq in E by exact Hz.
    specialize (E ltac:(eapply Rle_trans; [|exact BG]; apply bpow_le; lia)). change (round radix2 e64 ZnearestE (a / IZR f)) with (rn (a / IZR f)) in E. apply Rabs_le_inv in E. destruct E as [_ E].
    replace (/2 * b2 (- (53) + 1))%R with (b2 (-53)) in E by (change (/2)%R with (b2 (-1)); rewrite <- bpow_plus; reflexivity).
    assert (0 <= m * f) by nia. assert (FN : inF (IZR (m * f))) by (apply F_int; lia).
    pose proof (succ_le_lt radix2 e64 a (IZR (m * f)) Fa FN Hlt) as HS. rewrite succ_eq_pos in HS by exact Ha.
    pose proof (ulp_FLT_gt radix2 (-1074) 53 a) as HU. rewrite Rabs_pos_eq in HU by exact Ha.
    change (b2 (- (53))) with (b2 (-53)) in HU. set (u := b2 (-53)) in *. rewrite mult_IZR in HS.
    assert (Q : (a * (1 + u) < IZR m * IZR f)%R) by lra.
    assert (Q2 : (a / IZR f * (1 + u) < IZR m)%R). { apply (Rmult_lt_reg_r (IZR f)); [exact Hf'|]. replace (a / IZR f * (1 + u) * IZR f)%R with (a * (1 + u))%R by (field; lra). exact Q. }
    set (z := (a / IZR f)%R) in *. set (y := rn z) in *. clearbody y z u. clear - E Q2. apply Rle_lt_trans with (z * (1 + u))%R; [|exact Q2]. replace (z * (1 + u))%R with (u * z + z)%R by ring. apply (Rplus_le_reg_r (- z)). replace (u * z + z + - z)%R with (u * z)%R by ring. exact E.
  - apply Rle_lt_trans with (b2 (-100)); [|apply Rlt_le_trans with (b2 0); [apply bpow_lt; lia|cbn; apply IZR_le; lia]].
    rewrite <- (rn_id (b2 (-100))) by (apply generic_format_FLT_bpow; [reflexivity|lia]). apply rn_le. lra.
Qed.
Lemma div_cell x n f q : fin x -> (IZR (n - 1) <= val x)%R -> (val x < IZR n)%R -> 1 <= f <= 2 ^ 40 -> 0 <= q <= 2 ^ 40 -> q * f < n -> n <= (q + 1) * f -> (q + 1) * f <= 2 ^ 53 -> 1 <= n -> toInt (fdiv x (ofInt f)) = q.
Proof.
  intros Fx L1 L2 Hf Hq H1 H2 HN Hn1. destruct (int_val f) as [V2 F2]; [lia|]. assert (Hf' : (0 < IZR f)%R) by (apply IZR_lt; lia).
  assert (Lo : (IZR q <= rn (val x / IZR f))%R).
  { rewrite <- (rn_id (IZR q)) by (apply F_int; lia). apply rn_le. apply (Rmult_le_reg_r (IZR f)); [exact Hf'|]. replace (val x / IZR f * IZR f)%R with (val x) by (field; lra). rewrite <- mult_IZR. eapply Rle_trans; [|exact L1]. apply IZR_le. lia. }
  assert (Hi : (rn (val x / IZR f) < IZR (q + 1))%R).
  { apply div_below; try lia; [apply F_val|eapply Rle_trans; [|exact L1]; apply IZR_le; lia|]. eapply Rlt_le_trans; [exact L2|]. apply IZR_le. lia. }
  destruct (div_val x (ofInt f) Fx) as [V F].
  { rewrite V2. lra. }
  { rewrite V2. apply small_abs; [|lia]. rewrite Rabs_pos_eq by (eapply Rle_trans; [|exact Lo]; apply IZR_le; lia). left. eapply Rlt_le_trans; [exact Hi|]. apply IZR_le. lia. }
  apply toInt_floor; [lia|]. rewrite V, V2. split; [exact Lo|]. rewrite <- plus_IZR. exact Hi.
Qed.
(** where eps is lost *)
Lemma sub_eps_lost n : 2 ^ 24 < n <= 2 ^ 53 -> val (fsub (ofInt n) feps) = IZR n.
Proof.
  intros Hn. destruct (sub_eps n) as (_ & HB & E); [lia|]. rewrite E in *. pose proof eps_bounds as [_ E2]. pose proof eps_small as ES.
  assert (NE : (Rabs (rn (IZR n - eps) - (IZR n - eps)) <= eps)%R).
  { pose proof (round_N_pt radix2 e64 (fun x => negb (Z.even x)) (IZR n - eps)) as [_ HR]. assert (FN : inF (IZR n)) by (apply F_int; lia). specialize (HR (IZR n) FN).
    change (round radix2 e64 ZnearestE (IZR n - eps)) with (rn (IZR n - eps)) in HR. eapply Rle_trans; [exact HR|]. replace (IZR n - (IZR n - eps))%R with eps by ring. rewrite Rabs_pos_eq; lra. }
  apply Rabs_le_inv in NE. set (y := rn (IZR n - eps)) in *. pose proof (F_rn (IZR n - eps)) as Fy. fold y in Fy.
  assert (Hy : (b2 24 <= y)%R) by (apply Rle_trans with (IZR (n - 1)); [change (b2 24) with (IZR (2 ^ 24)); apply IZR_le; lia|apply HB]).
  (* y is a multiple of 2^-28 *)
  assert (exists k, y = IZR k * b2 (-28))%R as [k Hk].
  { unfold generic_format in Fy. assert (y <> 0)%R by (pose proof (bpow_gt_0 radix2 24); lra). assert (HM : 25 <= mag radix2 y) by (apply mag_ge_bpow; rewrite Rabs_pos_eq; [exact Hy|pose proof (bpow_gt_0 radix2 24); lra]).
    set (c := cexp radix2 e64 y) in *. assert (Hc : -28 <= c) by (unfold c, cexp, FLT_exp; lia).
    exists (Ztrunc (scaled_mantissa radix2 e64 y) * 2 ^ (c + 28)). rewrite mult_IZR. rewrite Fy at 1. unfold F2R. cbn [Fnum Fexp]. rewrite Rmult_assoc. f_equal.
    change (IZR (2 ^ (c + 28))) with (IZR (radix2 ^ (c + 28))). rewrite IZR_Zpower by lia. rewrite <- bpow_plus. f_equal. lia. }
  assert (Hn28 : IZR n = (IZR (n * 2 ^ 28) * b2 (-28))%R). { rewrite mult_IZR, Rmult_assoc. change (IZR (2 ^ 28)) with (b2 28). rewrite <- bpow_plus. cbn. ring. }
  assert (HD : (Rabs (IZR (k - n * 2 ^ 28)) < 1)%R).
  { apply (Rmult_lt_reg_r (b2 (-28))); [apply bpow_gt_0|]. rewrite <- (Rabs_pos_eq (b2 (-28))) at 1 by apply bpow_ge_0. rewrite <- Rabs_mult, minus_IZR, Rmult_minus_distr_r, <- Hk, <- Hn28, Rmult_1_l.
    apply Rabs_def1; [|]; assert (2 * b2 (-29) = b2 (-28))%R by (change 2%R with (b2 1); rewrite <- bpow_plus; reflexivity); lra. }
  rewrite <- abs_IZR in HD. apply lt_IZR in HD. assert (k = n * 2 ^ 28) by lia. subst k. rewrite Hk, <- Hn28. reflexivity.
Qed.
