(** Lemmas on the formats of numbers. *)
From Verif Require Export SScript MScript PTrajectory.
From Coq Require Import ZifyBool.
Open Scope string_scope.
Open Scope list_scope.
Open Scope Z_scope.

(** ** Digits *)
Lemma snoc_app w c s : (snoc w c ++ s)%string = (w ++ String c s)%string.
Proof. unfold snoc. rewrite sapp_assoc. reflexivity. Qed.
Lemma digs_length k : forall n, String.length (digs k n) = k.
Proof. induction k as [|k IH]; intros n; [reflexivity|]. cbn [digs]. unfold snoc. rewrite slength_app, IH. cbn. lia. Qed.
Lemma digitChar d : 0 <= d < 10 -> isDigit (ascii_of_nat (48 + Z.to_nat d)) = true /\ Z.of_nat (nat_of_ascii (ascii_of_nat (48 + Z.to_nat d))) - 48 = d.
Proof.
  intros H. assert (E : d = 0 \/ d = 1 \/ d = 2 \/ d = 3 \/ d = 4 \/ d = 5 \/ d = 6 \/ d = 7 \/ d = 8 \/ d = 9) by lia.
  repeat (destruct E as [->|E]; [split; reflexivity|]). subst d. split; reflexivity.
Qed.
Lemma digitsFrom_digs k : forall n acc s, 0 <= n -> digitsFrom acc (digs k n ++ s) = digitsFrom (acc * 10 ^ Z.of_nat k + n mod 10 ^ Z.of_nat k) s.
Proof.
  induction k as [|k IH]; intros n acc s Hn.
  - cbn [digs String.append]. change (10 ^ Z.of_nat 0) with 1. rewrite Z.mod_1_r. f_equal. lia.
  - cbn [digs]. rewrite snoc_app, IH by (apply Z.div_pos; lia). cbn [digitsFrom].
    destruct (digitChar (n mod 10) (Z.mod_pos_bound n 10 ltac:(lia))) as [E1 E2]. rewrite E1, E2. f_equal.
    rewrite Nat2Z.inj_succ, Z.pow_succ_r by lia. rewrite (Z.rem_mul_r n 10 (10 ^ Z.of_nat k)) by (try apply Z.pow_nonzero; lia). lia.
Qed.
Lemma digitsFrom_acc u : forall acc, digitsFrom (Zpos acc) (NilEmpty.string_of_uint u) = Some (Zpos (Pos.of_uint_acc u acc)).
Proof.
  induction u as [|u IH|u IH|u IH|u IH|u IH|u IH|u IH|u IH|u IH|u IH]; intros acc; [reflexivity|..];
    cbn [NilEmpty.string_of_uint digitsFrom Pos.of_uint_acc]; rewrite <- IH; match goal with |- (if ?b then ?x else _) = _ => change b with true; cbv iota end; f_equal; match goal with |- context[Z.of_nat (nat_of_ascii ?c)] => let v := eval vm_compute in (Z.of_nat (nat_of_ascii c)) in change (Z.of_nat (nat_of_ascii c)) with v end; lia.
Qed.
Lemma digitsFrom_uint u : digitsFrom 0 (NilEmpty.string_of_uint u) = Some (Z.of_N (Pos.of_uint u)).
Proof. induction u as [|u IH|u IH|u IH|u IH|u IH|u IH|u IH|u IH|u IH|u IH]; [reflexivity|exact IH|..]; cbn [NilEmpty.string_of_uint digitsFrom Pos.of_uint Z.of_N]; rewrite <- digitsFrom_acc; reflexivity. Qed.
Lemma digitsFrom_app a : forall acc b s, digitsFrom acc a = Some b -> digitsFrom acc (a ++ s) = digitsFrom b s.
Proof. induction a as [|c a IH]; intros acc b s H; [injection H as ->; reflexivity|]. cbn in *. destruct (isDigit c); [|discriminate]. apply IH. exact H. Qed.
Lemma digitsFrom_showZ n : 0 <= n -> digitsFrom 0 (showZ n) = Some n.
Proof.
  intros H. unfold showZ. assert (E := DecimalZ.of_to n). destruct n as [|p|p]; [reflexivity| |lia].
  cbn [Z.to_int NilZero.string_of_int] in *. cbn [Z.of_int] in E. unfold Z.of_uint in E. rewrite <- E, <- digitsFrom_uint. f_equal.
  destruct (Pos.to_uint p) eqn:Ep; try reflexivity. cbn in E. discriminate.
Qed.
Lemma showZ_ne n : showZ n <> "". Proof. intros E. assert (H := readZ_showZ n). rewrite E in H. discriminate. Qed.
Lemma digits_ne s z : s <> "" -> digitsFrom 0 s = Some z -> digits s = Some z. Proof. destruct s; [congruence|]. auto. Qed.
Lemma digits_showZ n : 0 <= n -> digits (showZ n) = Some n. Proof. intros H. apply digits_ne; [apply showZ_ne|apply digitsFrom_showZ; exact H]. Qed.
Lemma digits_digs k n : (0 < k)%nat -> 0 <= n < 10 ^ Z.of_nat k -> digits (digs k n) = Some n.
Proof.
  intros Hk Hn. apply digits_ne; [intros E; assert (H := digs_length k n); rewrite E in H; cbn in H; lia|].
  rewrite <- (sapp_nil (digs k n)), digitsFrom_digs by lia. cbn. rewrite Z.mod_small by lia. f_equal.
Qed.
(** a word of digits *)
Fixpoint allDigits (s : string) : Prop := match s with EmptyString => True | String c s' => isDigit c = true /\ allDigits s' end.
Lemma allDigits_app a b : allDigits (a ++ b) <-> allDigits a /\ allDigits b. Proof. induction a as [|c a IH]; cbn; [tauto|]. rewrite IH. tauto. Qed.
Lemma digs_digits k : forall n, allDigits (digs k n).
Proof. induction k as [|k IH]; intros n; [exact I|]. cbn [digs]. unfold snoc. apply allDigits_app. split; [apply IH|]. split; [|exact I]. apply (digitChar (n mod 10)). apply Z.mod_pos_bound. lia. Qed.
Lemma digitsFrom_all a : forall acc b, digitsFrom acc a = Some b -> allDigits a.
Proof. induction a as [|c a IH]; intros acc b H; [exact I|]. cbn in *. destruct (isDigit c); [|discriminate]. split; [reflexivity|]. eapply IH. exact H. Qed.
Lemma showZ_digits n : 0 <= n -> allDigits (showZ n). Proof. intros H. exact (digitsFrom_all _ _ _ (digitsFrom_showZ n H)). Qed.
Lemma showZ_neg n : n < 0 -> showZ n = String "-" (showZ (- n)).
Proof. intros H. destruct n as [|p|p]; [lia|lia|]. reflexivity. Qed.
Lemma digit_not c d : isDigit c = true -> isDigit d = false -> Ascii.eqb d c = false.
Proof. intros H H'. apply Ascii.eqb_neq. congruence. Qed.
Lemma splitAt_digits c a s : isDigit c = false -> allDigits a -> splitAt c (a ++ String c s) = Some (a, s).
Proof.
  intros Hc. induction a as [|d a IH]; intros H; [cbn; rewrite Ascii.eqb_refl; reflexivity|]. destruct H as [H1 H2]. cbn [String.append splitAt]. rewrite (digit_not d c H1 Hc), IH by exact H2. reflexivity.
Qed.
Lemma splitAt_none c a : isDigit c = false -> allDigits a -> splitAt c a = None.
Proof. intros Hc. induction a as [|d a IH]; intros H; [reflexivity|]. destruct H as [H1 H2]. cbn [splitAt]. rewrite (digit_not d c H1 Hc), IH by exact H2. reflexivity. Qed.

(** ** Reading what is printed *)
Definition sgText (neg : bool) : string := if neg then "-" else "".
Definition sgOf (neg : bool) : Z := if neg then -1 else 1.
Lemma signed_digits neg a : a <> "" -> allDigits a -> forall s, signed (sgText neg ++ a ++ s) = (sgOf neg, (a ++ s)%string).
Proof.
  intros Ha Hd s. destruct neg; [reflexivity|]. destruct a as [|c a]; [congruence|]. destruct Hd as [H1 _]. cbn [sgText String.append signed]. rewrite Ascii.eqb_sym. rewrite (digit_not c "-" H1) by reflexivity. reflexivity.
Qed.
Lemma digitsFrom_all_some s : forall acc, allDigits s -> exists z, digitsFrom acc s = Some z.
Proof. induction s as [|c s IH]; intros acc H; [eexists; reflexivity|]. destruct H as [H1 H2]. cbn [digitsFrom]. rewrite H1. apply IH. exact H2. Qed.
Lemma decimal_exp neg a b e m k : a <> "" -> allDigits a -> allDigits b -> digitsFrom 0 (a ++ b) = Some m -> expo e = Some k ->
  decimal (sgText neg ++ a ++ "." ++ b ++ "e" ++ e) = Some (sgOf neg * m, k - Z.of_nat (String.length b)).
Proof.
  intros Ha Da Db Hm He. unfold decimal. rewrite signed_digits by assumption. cbn [String.append]. rewrite (splitAt_digits "." a) by (auto; reflexivity). cbn [Base.obind fst snd].
  destruct (digitsFrom_all_some a 0 Da) as (z & Hz). rewrite (digits_ne a z Ha Hz). cbn [Base.obind]. rewrite (splitAt_digits "e" b) by (auto; reflexivity). cbn [fst snd].
  rewrite (digits_ne (a ++ b) m) by (first [exact Hm | destruct a; [congruence|discriminate]]). cbn [Base.obind]. rewrite He. reflexivity.
Qed.
Lemma decimal_plain neg a b m : a <> "" -> allDigits a -> allDigits b -> digitsFrom 0 (a ++ b) = Some m ->
  decimal (sgText neg ++ a ++ "." ++ b) = Some (sgOf neg * m, - Z.of_nat (String.length b)).
Proof.
  intros Ha Da Db Hm. unfold decimal. rewrite signed_digits by assumption. cbn [String.append]. rewrite (splitAt_digits "." a) by (auto; reflexivity). cbn [Base.obind fst snd].
  destruct (digitsFrom_all_some a 0 Da) as (z & Hz). rewrite (digits_ne a z Ha Hz). cbn [Base.obind]. rewrite (splitAt_none "e" b) by (auto; reflexivity).
  rewrite (digits_ne (a ++ b) m) by (first [exact Hm | destruct a; [congruence|discriminate]]). reflexivity.
Qed.
Lemma expo_text e : expo (expText e) = Some e.
Proof.
  unfold expText. set (t := if Z.abs e <? 100 then digs 2 (Z.abs e) else showZ (Z.abs e)). assert (Ht : digits t = Some (Z.abs e)).
  { unfold t. destruct (Z.ltb_spec (Z.abs e) 100); [apply digits_digs; [lia|change (10 ^ Z.of_nat 2) with 100; lia]|apply digits_showZ; lia]. }
  destruct (Z.ltb_spec e 0); cbn; rewrite Ht; cbn [option_map]; f_equal; lia.
Qed.

(** ** Exponents *)
Lemma timesTen_spec fuel : forall n d, 0 < n -> d <= n * 10 ^ Z.of_nat fuel -> let k := timesTen fuel n d in 0 <= k /\ d <= n * 10 ^ k /\ (0 < k -> n * 10 ^ (k - 1) < d).
Proof.
  induction fuel as [|f IH]; intros n d Hn Hd; cbn [timesTen].
  - change (10 ^ Z.of_nat 0) with 1 in Hd. cbn zeta. change (10 ^ 0) with 1. lia.
  - destruct (Z.leb_spec d n); cbn zeta; [change (10 ^ 0) with 1; lia|].
    rewrite Nat2Z.inj_succ, Z.pow_succ_r in Hd by lia. destruct (IH (10 * n) d ltac:(lia) ltac:(lia)) as (I1 & I2 & I3). set (k := timesTen f (10 * n) d) in *.
    split; [lia|]. split.
    + rewrite Z.pow_add_r by lia. change (10 ^ 1) with 10. lia.
    + intros _. replace (1 + k - 1) with k by lia. destruct (Z.eq_dec k 0) as [->|]; [change (10 ^ 0) with 1; lia|]. specialize (I3 ltac:(lia)). replace k with (k - 1 + 1) by lia. rewrite Z.pow_add_r by lia. change (10 ^ 1) with 10. lia.
Qed.
Lemma pow_log n : 0 < n -> n + 1 <= 10 ^ (Z.log2 n + 2).
Proof.
  intros H. destruct (Z.log2_spec n H) as [_ H2]. assert (L := Z.log2_nonneg n). assert (P : 2 ^ Z.succ (Z.log2 n) <= 10 ^ Z.succ (Z.log2 n)) by (apply Z.pow_le_mono_l; lia).
  replace (Z.log2 n + 2) with (Z.succ (Z.log2 n) + 1) by lia. rewrite Z.pow_add_r by lia. change (10 ^ 1) with 10. lia.
Qed.
(** 10^e <= n/d < 10^(e+1) *)
Definition scaled (n e : Z) : Z := if 0 <=? e then n * 10 ^ e else n.
Lemma exponent_spec n d : 0 < n -> 0 < d -> let e := exponent n d in
  (0 <= e -> d * 10 ^ e <= n < d * 10 ^ (e + 1)) /\ (e < 0 -> d <= n * 10 ^ (- e) /\ n * 10 ^ (- e - 1) < d).
Proof.
  intros Hn Hd. unfold exponent. destruct (Z.leb_spec d n); cbn zeta.
  - destruct (timesTen_spec (Z.to_nat (Z.log2 n + 2)) d (n + 1) Hd) as (I1 & I2 & I3).
    { assert (L := Z.log2_nonneg n). rewrite Z2Nat.id by lia. assert (P := pow_log n Hn). assert (Q : 1 * 10 ^ (Z.log2 n + 2) <= d * 10 ^ (Z.log2 n + 2)) by (apply Z.mul_le_mono_nonneg_r; [apply Z.pow_nonneg|]; lia). lia. }
    set (k := timesTen _ d (n + 1)) in *. assert (k <> 0) by (intros E; rewrite E in I2; change (10 ^ 0) with 1 in I2; lia). split; [|lia]. intros _. specialize (I3 ltac:(lia)). replace (k - 1 + 1) with k by lia. lia.
  - destruct (timesTen_spec (Z.to_nat (Z.log2 d + 2)) n d Hn) as (I1 & I2 & I3).
    { assert (L := Z.log2_nonneg d). rewrite Z2Nat.id by lia. assert (P := pow_log d Hd). assert (Q : 1 * 10 ^ (Z.log2 d + 2) <= n * 10 ^ (Z.log2 d + 2)) by (apply Z.mul_le_mono_nonneg_r; [apply Z.pow_nonneg|]; lia). lia. }
    set (k := timesTen _ n d) in *. assert (k <> 0) by (intros E; rewrite E in I2; change (10 ^ 0) with 1 in I2; lia). split; [lia|]. intros _. specialize (I3 ltac:(lia)). rewrite Z.opp_involutive. auto.
Qed.
Lemma roundEven_spec n d : 0 < d -> 2 * Z.abs (roundEven n d * d - n) <= d.
Proof.
  intros H. unfold roundEven. assert (E := Z.div_mod n d ltac:(lia)). assert (B := Z.mod_pos_bound n d H). set (q := n / d) in *. set (r := n mod d) in *.
  destruct (Z.ltb_spec (2 * r) d); [|destruct (Z.ltb_spec d (2 * r)); [|destruct (Z.even q)]]; nia.
Qed.
Lemma roundEven_exact q d : 0 < d -> roundEven (q * d) d = q.
Proof. intros H. unfold roundEven. rewrite Z.div_mul, Z.mod_mul by lia. destruct (Z.ltb_spec (2 * 0) d); lia. Qed.
Lemma roundEven_le n d a b : 0 < d -> a * d <= n <= b * d -> a <= roundEven n d <= b.
Proof. intros H HR. assert (S := roundEven_spec n d H). nia. Qed.

(** ** Powers of ten *)
Lemma tens_pos k : 0 < tens k. Proof. unfold tens. apply Z.pow_pos_nonneg; lia. Qed.
Lemma tens_nonneg k : 0 <= k -> tens k = 10 ^ k. Proof. intros H. unfold tens. f_equal. lia. Qed.
Lemma tens_neg k : k <= 0 -> tens k = 1. Proof. intros H. unfold tens. replace (Z.max 0 k) with 0 by lia. reflexivity. Qed.
Lemma tens_sum a b c : a + b = c -> tens c * tens (- a) * tens (- b) = tens (- c) * tens a * tens b.
Proof. intros <-. unfold tens. rewrite <- !Z.pow_add_r by lia. f_equal. lia. Qed.
Lemma cancel_le a b c : 0 < c -> a * c <= b * c -> a <= b. Proof. intros. nia. Qed.
Lemma cancel_eq a b c : 0 < c -> a * c = b * c -> a = b. Proof. intros. nia. Qed.
Lemma exponent_tens n d : 0 < n -> 0 < d -> let e := exponent n d in d * tens e <= n * tens (- e) /\ n * tens (- e - 1) < d * tens (e + 1).
Proof.
  intros Hn Hd. destruct (exponent_spec n d Hn Hd) as [E1 E2]. cbn zeta. set (e := exponent n d) in *. destruct (Z.leb_spec 0 e).
  - rewrite (tens_nonneg e), (tens_neg (- e)), (tens_neg (- e - 1)), (tens_nonneg (e + 1)) by lia. specialize (E1 ltac:(lia)). lia.
  - rewrite (tens_neg e), (tens_nonneg (- e)), (tens_nonneg (- e - 1)), (tens_neg (e + 1)) by lia. specialize (E2 ltac:(lia)). lia.
Qed.
(** the same number with another exponent *)
Lemma shift_tens P E : 0 <= P -> 10 ^ P * tens (E + 1 - P) * tens (- (E - P)) = 10 ^ (P + 1) * tens (E - P) * tens (- (E + 1 - P)).
Proof.
  intros H0. assert (T := tens_sum 1 (E - P) (E + 1 - P) ltac:(lia)). rewrite (tens_nonneg 1), (tens_neg (Z.opp 1)) in T by lia. change (10 ^ 1) with 10 in T. rewrite Z.pow_add_r by lia. change (10 ^ 1) with 10.
  replace (10 ^ P * tens (E + 1 - P) * tens (- (E - P))) with (10 ^ P * (tens (E + 1 - P) * 1 * tens (- (E - P)))) by ring. rewrite T. ring.
Qed.
Section Mantissa.
Context (p : nat) (n d : Z) (Hn : 0 < n) (Hd : 0 < d).
Let e := exponent n d.
Let P := Z.of_nat p.
Let m := roundEven (n * tens (P - e)) (d * tens (e - P)).
Lemma mantissa_unfold : mantissa p n d = if m =? 10 ^ (P + 1) then (10 ^ P, e + 1) else (m, e).
Proof.
  unfold mantissa. fold e P. cbn zeta. replace (if 0 <=? P - e then _ else _) with m; [reflexivity|]. unfold m. destruct (Z.leb_spec 0 (P - e)).
  - rewrite (tens_nonneg (P - e)), (tens_neg (e - P)) by lia. f_equal. lia.
  - rewrite (tens_neg (P - e)), (tens_nonneg (e - P)) by lia. f_equal; [lia|]. f_equal. f_equal. lia.
Qed.
Lemma lower : 10 ^ P * (d * tens (e - P)) <= n * tens (P - e).
Proof.
  destruct (exponent_tens n d Hn Hd) as [E1 _]. fold e in E1. cbn zeta in E1. assert (T := tens_sum P (e - P) e ltac:(lia)). replace (- (e - P)) with (P - e) in T by lia.
  rewrite (tens_nonneg P), (tens_neg (- P)) in T by lia. apply (cancel_le _ _ (tens (- e))); [apply tens_pos|].
  replace (10 ^ P * (d * tens (e - P)) * tens (- e)) with (d * (tens (- e) * 10 ^ P * tens (e - P))) by ring. rewrite <- T.
  replace (d * (tens e * 1 * tens (P - e))) with (d * tens e * tens (P - e)) by ring. replace (n * tens (P - e) * tens (- e)) with (n * tens (- e) * tens (P - e)) by ring.
  apply Z.mul_le_mono_nonneg_r; [|exact E1]. apply Z.lt_le_incl, tens_pos.
Qed.
Lemma upper : n * tens (P - e) <= 10 ^ (P + 1) * (d * tens (e - P)).
Proof.
  destruct (exponent_tens n d Hn Hd) as [_ E1]. fold e in E1. cbn zeta in E1. assert (T := tens_sum (P + 1) (e - P) (e + 1) ltac:(lia)). replace (- (e - P)) with (P - e) in T by lia.
  rewrite (tens_nonneg (P + 1)), (tens_neg (- (P + 1))) in T by lia. replace (- (e + 1)) with (- e - 1) in T by lia. apply (cancel_le _ _ (tens (- e - 1))); [apply tens_pos|].
  replace (10 ^ (P + 1) * (d * tens (e - P)) * tens (- e - 1)) with (d * (tens (- e - 1) * 10 ^ (P + 1) * tens (e - P))) by ring. rewrite <- T.
  replace (d * (tens (e + 1) * 1 * tens (P - e))) with (d * tens (e + 1) * tens (P - e)) by ring. replace (n * tens (P - e) * tens (- e - 1)) with (n * tens (- e - 1) * tens (P - e)) by ring.
  apply Z.mul_le_mono_nonneg_r; [|lia]. apply Z.lt_le_incl, tens_pos.
Qed.
Lemma den_pos : 0 < d * tens (e - P). Proof. apply Z.mul_pos_pos; [exact Hd|apply tens_pos]. Qed.
Lemma m_range : 10 ^ P <= m <= 10 ^ (P + 1). Proof. apply roundEven_le; [apply den_pos|]. split; [apply lower|apply upper]. Qed.
Lemma m_near : nearTo P d n m (e - P).
Proof.
  unfold nearTo. replace (- (e - P)) with (P - e) by lia. assert (R := roundEven_spec (n * tens (P - e)) (d * tens (e - P)) den_pos). fold m in R.
  replace (m * (d * tens (e - P))) with (m * tens (e - P) * d) in R by ring. assert (L := lower). rewrite (Z.abs_eq n) by lia. assert (0 <= 10 ^ P) by (apply Z.pow_nonneg; lia).
  set (A := Z.abs (m * tens (e - P) * d - n * tens (P - e))) in *. set (B := d * tens (e - P)) in *. set (C := n * tens (P - e)) in *. nia.
Qed.
Lemma m_exact : shortDecimal (P + 1) d n -> equalTo d n m (e - P).
Proof.
  intros (n0 & j & H1 & H2). unfold equalTo in *. replace (- (e - P)) with (P - e) by lia.
  assert (Hn0 : 0 < n0). { assert (0 < n * tens (- j)) by (apply Z.mul_pos_pos; [exact Hn|apply tens_pos]). assert (0 < tens j * d) by (apply Z.mul_pos_pos; [apply tens_pos|exact Hd]). nia. }
  rewrite Z.abs_eq in H1 by lia. destruct (exponent_tens n d Hn Hd) as [E1 _]. cbn zeta in E1. fold e in E1.
  assert (Ht : 0 <= P - e + j).
  { destruct (Z.leb_spec 0 (P - e + j)) as [|F]; [assumption|exfalso]. assert (T := tens_sum e (- j) (e - j) ltac:(lia)). rewrite (tens_nonneg (e - j)), (tens_neg (- (e - j))), Z.opp_involutive in T by lia.
    assert (M : d * tens e * tens (- j) <= n * tens (- e) * tens (- j)) by (apply Z.mul_le_mono_nonneg_r; [apply Z.lt_le_incl, tens_pos|exact E1]).
    replace (n * tens (- e) * tens (- j)) with (n * tens (- j) * tens (- e)) in M by ring. rewrite <- H2 in M.
    replace (d * tens e * tens (- j)) with (1 * tens e * tens (- j) * d) in M by ring. rewrite <- T in M. assert (PP : 10 ^ (P + 1) <= 10 ^ (e - j)) by (apply Z.pow_le_mono_r; lia).
    replace (10 ^ (e - j) * tens (- e) * tens j * d) with (10 ^ (e - j) * (tens (- e) * tens j * d)) in M by ring. replace (n0 * tens j * d * tens (- e)) with (n0 * (tens (- e) * tens j * d)) in M by ring.
    assert (0 < tens (- e) * tens j * d) by (repeat apply Z.mul_pos_pos; auto using tens_pos). apply cancel_le in M; lia. }
  set (t := P - e + j) in *. assert (E : n * tens (P - e) = (n0 * 10 ^ t) * (d * tens (e - P))).
  { assert (T := tens_sum (P - e) j t eq_refl). rewrite (tens_nonneg t), (tens_neg (- t)) in T by lia. replace (- (P - e)) with (e - P) in T by lia. apply (cancel_eq _ _ (tens j)); [apply tens_pos|].
    replace (n * tens (P - e) * tens j) with (n * (1 * tens (P - e) * tens j)) by ring. rewrite <- T. replace (n0 * 10 ^ t * (d * tens (e - P)) * tens j) with (n0 * tens j * d * (10 ^ t * tens (e - P))) by ring. rewrite H2. ring. }
  assert (Em : m = n0 * 10 ^ t) by (unfold m; rewrite E; apply roundEven_exact; apply den_pos). rewrite Em, E. ring.
Qed.
End Mantissa.
Lemma near_same p U x m k m' k' : m * tens k * tens (- k') = m' * tens k' * tens (- k) -> nearTo p U x m k -> nearTo p U x m' k'.
Proof.
  unfold nearTo. intros E H. assert (Pk := tens_pos (- k)). assert (Pk' := tens_pos (- k')). apply (cancel_le _ _ (tens (- k))); [exact Pk|].
  replace (2 * 10 ^ p * Z.abs (m' * tens k' * U - x * tens (- k')) * tens (- k)) with (2 * 10 ^ p * (Z.abs (m' * tens k' * U - x * tens (- k')) * Z.abs (tens (- k)))) by (rewrite (Z.abs_eq (tens (- k))) by lia; ring).
  rewrite <- Z.abs_mul. replace ((m' * tens k' * U - x * tens (- k')) * tens (- k)) with (m' * tens k' * tens (- k) * U - x * tens (- k') * tens (- k)) by ring. rewrite <- E.
  replace (m * tens k * tens (- k') * U - x * tens (- k') * tens (- k)) with ((m * tens k * U - x * tens (- k)) * tens (- k')) by ring. rewrite Z.abs_mul, (Z.abs_eq (tens (- k'))) by lia.
  replace (2 * 10 ^ p * (Z.abs (m * tens k * U - x * tens (- k)) * tens (- k'))) with (2 * 10 ^ p * Z.abs (m * tens k * U - x * tens (- k)) * tens (- k')) by ring.
  replace (Z.abs x * tens (- k') * tens (- k)) with (Z.abs x * tens (- k) * tens (- k')) by ring. apply Z.mul_le_mono_nonneg_r; lia.
Qed.
Lemma equal_same U x m k m' k' : m * tens k * tens (- k') = m' * tens k' * tens (- k) -> equalTo U x m k -> equalTo U x m' k'.
Proof.
  unfold equalTo. intros E H. apply (cancel_eq _ _ (tens (- k))); [apply tens_pos|]. replace (m' * tens k' * U * tens (- k)) with (m' * tens k' * tens (- k) * U) by ring. rewrite <- E.
  replace (m * tens k * tens (- k') * U) with (m * tens k * U * tens (- k')) by ring. rewrite H. ring.
Qed.
Lemma mantissa_spec p n d m e : 0 < n -> 0 < d -> mantissa p n d = (m, e) ->
  10 ^ Z.of_nat p <= m < 10 ^ (Z.of_nat p + 1) /\ nearTo (Z.of_nat p) d n m (e - Z.of_nat p) /\ (shortDecimal (Z.of_nat p + 1) d n -> equalTo d n m (e - Z.of_nat p)).
Proof.
  intros Hn Hd H. rewrite (mantissa_unfold p n d) in H. assert (R := m_range p n d Hn Hd). assert (N := m_near p n d Hn Hd). assert (X := m_exact p n d Hn Hd). cbn zeta in *.
  set (e0 := exponent n d) in *. set (m0 := roundEven _ _) in *. clearbody m0 e0. destruct (Z.eqb_spec m0 (10 ^ (Z.of_nat p + 1))) as [E|E]; injection H as <- <-.
  - assert (ST := shift_tens (Z.of_nat p) e0 (Nat2Z.is_nonneg p)). split; [split; [apply Z.le_refl|apply Z.pow_lt_mono_r; lia]|]. rewrite E in *. split; [refine (near_same _ _ _ _ _ _ _ _ N); symmetry; exact ST|].
    intros HS. refine (equal_same _ _ _ _ _ _ _ (X HS)). symmetry. exact ST.
  - split; [destruct R; split; [assumption|apply Z.le_neq; auto]|]. split; assumption.
Qed.

(** ** Words of numbers *)
Lemma run_app m d a : forall s, scan m d (a ++ s) = (r <- scan m d a ;; let '(ts, m1, d1) := r in q <- scan m1 d1 s ;; let '(us, m2, d2) := q in Some (ts ++ us, m2, d2)).
Proof.
  revert m d. induction a as [|c a IH]; intros m d s; [cbn; destruct (scan m d s) as [[[us m2] d2]|]; reflexivity|]. cbn [String.append scan]. destruct (scanChar m d c) as [[[ts m1] d1]|]; [|reflexivity]. cbn [Base.obind]. rewrite IH.
  destruct (scan m1 d1 a) as [[[us m2] d2]|]; [|reflexivity]. cbn [Base.obind]. destruct (scan m2 d2 s) as [[[vs m3] d3]|]; [|reflexivity]. cbn [Base.obind]. rewrite app_assoc. reflexivity.
Qed.
Lemma run_then m d a ts m1 d1 s us m2 d2 : scan m d a = Some (ts, m1, d1) -> scan m1 d1 s = Some (us, m2, d2) -> scan m d (a ++ s) = Some (ts ++ us, m2, d2).
Proof. intros E1 E2. rewrite run_app, E1. cbn [Base.obind]. rewrite E2. reflexivity. Qed.
Lemma run_blanks n d : scan Idle d (blanks n) = Some ([], Idle, d).
Proof. induction n as [|n IH]; [reflexivity|]. cbn. rewrite IH. reflexivity. Qed.
Lemma run_more w d v : allDigits v -> scan (InNum w) d v = Some ([], InNum (w ++ v), d).
Proof.
  revert w. induction v as [|c v IH]; intros w H; [cbn; rewrite sapp_nil; reflexivity|]. destruct H as [H1 H2]. cbn [scan scanChar]. unfold isNumChar. rewrite H1. cbn [orb Base.obind]. rewrite IH by exact H2. cbn [Base.obind]. rewrite snoc_app. reflexivity.
Qed.
Lemma lastIs_snoc c w : lastIs c (w ++ String c "") = true.
Proof. induction w as [|d w IH]; [cbn; apply Ascii.eqb_refl|]. cbn [String.append lastIs]. destruct (w ++ String c "")%string eqn:E; [destruct w; discriminate|]. exact IH. Qed.
Lemma digit_idle c d : isDigit c = true -> scanChar Idle d c = Some ([], InNum (String c ""), d).
Proof.
  intros H. cbn [scanChar]. unfold stepIdle. rewrite H. assert (F : forall e, isDigit e = false -> Ascii.eqb c e = false) by (intros e He; rewrite Ascii.eqb_sym; apply digit_not; assumption).
  rewrite !F by reflexivity. reflexivity.
Qed.
(** a sign and digits *)
Lemma run_signed neg a d : a <> "" -> allDigits a -> scan Idle d (sgText neg ++ a) = Some ([], InNum (sgText neg ++ a), d).
Proof.
  intros Ha Hd. destruct neg.
  - change (sgText true) with (String "-" ""). cbn [String.append scan]. cbn [scanChar stepIdle]. change (stepIdle d "-") with (Some (@nil tok, InNum (String "-" ""), d)). cbn [Base.obind]. rewrite run_more by exact Hd. reflexivity.
  - destruct a as [|c a]; [congruence|]. destruct Hd as [H1 H2]. change (sgText false ++ String c a)%string with (String c a). cbn [scan]. rewrite digit_idle by exact H1. cbn [Base.obind]. rewrite run_more by exact H2. reflexivity.
Qed.
Lemma run_point w d v : allDigits v -> scan (InNum w) d ("." ++ v) = Some ([], InNum (w ++ "." ++ v), d).
Proof. intros H. cbn [String.append scan]. change (scanChar (InNum w) d ".") with (Some (@nil tok, InNum (snoc w "."), d)). cbn [Base.obind]. rewrite run_more by exact H. cbn [Base.obind]. rewrite snoc_app. reflexivity. Qed.
Lemma expText_digits e : exists c v, expText e = String c v /\ (c = "+"%char \/ c = "-"%char) /\ allDigits v.
Proof.
  unfold expText. exists (if Z.ltb e 0 then "-"%char else "+"%char). eexists. split; [destruct (Z.ltb_spec e 0); cbn [String.append]; reflexivity|]. split; [destruct (Z.ltb_spec e 0); auto|].
  destruct (Z.ltb_spec (Z.abs e) 100); [apply digs_digits|apply showZ_digits; lia].
Qed.
Lemma run_exp w d e : scan (InNum w) d ("e" ++ expText e) = Some ([], InNum (w ++ "e" ++ expText e), d).
Proof.
  destruct (expText_digits e) as (c & v & -> & Hc & Hv). cbn [String.append scan]. change (scanChar (InNum w) d "e") with (Some (@nil tok, InNum (snoc w "e"), d)). cbn [Base.obind].
  assert (E : scanChar (InNum (snoc w "e")) d c = Some ([], InNum (snoc (snoc w "e") c), d)). { cbn [scanChar]. unfold isNumChar. unfold snoc at 1. rewrite lastIs_snoc. destruct Hc as [-> | ->]; reflexivity. }
  rewrite E. cbn [Base.obind]. rewrite run_more by exact Hv. cbn [Base.obind]. rewrite !snoc_app. reflexivity.
Qed.
Lemma run_padded w0 s w : (forall d, scan Idle d s = Some ([], InNum w, d)) -> forall d, scan Idle d (padLeft w0 s) = Some ([], InNum w, d).
Proof. intros H d. unfold padLeft. rewrite run_app, run_blanks. cbn [Base.obind]. rewrite H. reflexivity. Qed.
Lemma digs1_ne n : digs 1 n <> "". Proof. intros E. assert (H := digs_length 1 n). rewrite E in H. discriminate. Qed.
Lemma pow_split (p : nat) m : 10 ^ Z.of_nat p <= m < 10 ^ (Z.of_nat p + 1) -> 0 <= m / 10 ^ Z.of_nat p < 10 /\ 0 <= m mod 10 ^ Z.of_nat p < 10 ^ Z.of_nat p /\ m = m / 10 ^ Z.of_nat p * 10 ^ Z.of_nat p + m mod 10 ^ Z.of_nat p.
Proof.
  intros H. assert (P : 0 < 10 ^ Z.of_nat p) by (apply Z.pow_pos_nonneg; lia). rewrite Z.pow_add_r in H by lia. change (10 ^ 1) with 10 in H. assert (E := Z.div_mod m (10 ^ Z.of_nat p) ltac:(lia)). assert (B := Z.mod_pos_bound m _ P).
  split; [split; [apply Z.div_pos; lia|apply Z.div_lt_upper_bound; lia]|]. split; [exact B|lia].
Qed.
(** %w.pe *)
Lemma fmtE_denotes w p U x : (0 < p)%nat -> 0 < U -> exists m k, denotes (fmtE w p U x) m k /\ nearTo (Z.of_nat p) U x m k /\ (shortDecimal (Z.of_nat p + 1) U x -> equalTo U x m k).
Proof.
  intros Hp HU. unfold fmtE. destruct (Z.eqb_spec x 0) as [->|Hx].
  - exists 0, (0 - Z.of_nat p). split; [|split; [unfold nearTo; lia|unfold equalTo; lia]]. exists ("0." ++ digs p 0 ++ "e+00")%string. split.
    + apply run_padded. intros d. change ("0." ++ digs p 0 ++ "e+00")%string with ((sgText false ++ "0") ++ ("." ++ digs p 0 ++ "e" ++ expText 0))%string.
      rewrite (run_then Idle d (sgText false ++ "0") [] (InNum (sgText false ++ "0")) d _ [] (InNum ("0." ++ digs p 0 ++ "e+00")) d); [reflexivity|apply run_signed; [discriminate|repeat split]|].
      change ("." ++ digs p 0 ++ "e" ++ expText 0)%string with (("." ++ digs p 0) ++ ("e" ++ expText 0))%string. rewrite (run_then _ d ("." ++ digs p 0) [] (InNum ("0" ++ "." ++ digs p 0)) d ("e" ++ expText 0) [] (InNum (("0" ++ "." ++ digs p 0) ++ "e" ++ expText 0)) d).
      * cbn. reflexivity.
      * apply run_point. apply digs_digits.
      * apply run_exp.
    + assert (D := decimal_exp false "0" (digs p 0) "+00" 0 0 ltac:(discriminate) ltac:(repeat split) (digs_digits p 0)). cbn [sgText sgOf] in D. rewrite digs_length in D. apply D; [|reflexivity].
      cbn [String.append digitsFrom]. change (isDigit "0") with true. cbv iota. rewrite <- (sapp_nil (digs p 0)), digitsFrom_digs by lia. cbn [digitsFrom]. rewrite Z.mod_0_l by (apply Z.pow_nonzero; lia). reflexivity.
  - destruct (mantissa p (Z.abs x) U) as [m e] eqn:EM. destruct (mantissa_spec p (Z.abs x) U m e ltac:(lia) HU EM) as (M1 & M2 & M3). destruct (pow_split p m M1) as (Q1 & Q2 & Q3).
    set (a := m / 10 ^ Z.of_nat p) in *. set (b := m mod 10 ^ Z.of_nat p) in *. set (neg := x <? 0). exists (sgOf neg * m), (e - Z.of_nat p). split.
    + change (if neg then "-" else "") with (sgText neg). exists (sgText neg ++ digs 1 a ++ "." ++ digs p b ++ "e" ++ expText e)%string. split.
      * apply run_padded. intros d. replace (sgText neg ++ digs 1 a ++ "." ++ digs p b ++ "e" ++ expText e)%string with ((sgText neg ++ digs 1 a) ++ ("." ++ digs p b) ++ ("e" ++ expText e))%string by (rewrite !sapp_assoc; reflexivity).
        refine (run_then _ _ _ [] _ _ _ [] _ _ (run_signed neg (digs 1 a) d (digs1_ne a) (digs_digits 1 a)) _). replace (((sgText neg ++ digs 1 a) ++ ("." ++ digs p b) ++ ("e" ++ expText e)))%string with ((((sgText neg ++ digs 1 a) ++ ("." ++ digs p b)) ++ ("e" ++ expText e)))%string by (rewrite !sapp_assoc; reflexivity).
        refine (run_then _ _ _ [] _ _ _ [] _ _ (run_point _ _ _ (digs_digits p b)) _). apply run_exp.
      * assert (D := decimal_exp neg (digs 1 a) (digs p b) (expText e) m e (digs1_ne a) (digs_digits 1 a) (digs_digits p b)). rewrite digs_length in D. apply D; [|apply expo_text].
        rewrite digitsFrom_digs by lia. rewrite <- (sapp_nil (digs p b)), digitsFrom_digs by lia. cbn [digitsFrom]. change (10 ^ Z.of_nat 1) with 10. rewrite (Z.mod_small a) by lia. rewrite (Z.mod_small b) by lia. f_equal. lia.
    + assert (SX : x = sgOf neg * Z.abs x) by (unfold neg, sgOf; destruct (Z.ltb_spec x 0); lia). assert (SA : Z.abs (sgOf neg) = 1) by (unfold sgOf; destruct neg; reflexivity). split.
      * unfold nearTo in *. set (k := e - Z.of_nat p) in *. replace (sgOf neg * m * tens k * U - x * tens (- k)) with (sgOf neg * (m * tens k * U - Z.abs x * tens (- k))) by (rewrite SX at 2; ring). rewrite Z.abs_mul, SA. rewrite Z.abs_involutive in M2. lia.
      * intros (n0 & j & S1 & S2). unfold equalTo in *. rewrite SX at 1. transitivity (sgOf neg * (m * tens (e - Z.of_nat p) * U)); [ring|]. rewrite M3; [ring|]. exists (sgOf neg * n0), j. split; [rewrite Z.abs_mul, SA; lia|]. unfold equalTo.
        transitivity (sgOf neg * (n0 * tens j * U)); [ring|]. rewrite S2. rewrite SX at 1. assert (SS : sgOf neg * sgOf neg = 1) by (destruct neg; reflexivity). transitivity (sgOf neg * sgOf neg * Z.abs x * tens (- j)); [ring|]. rewrite SS. ring.
Qed.
(** %w.pf *)
Lemma fmtF_denotes w p U x : 0 < U -> (0 < p)%nat -> exists m, denotes (fmtF w p U x) m (- Z.of_nat p) /\ within (Z.of_nat p) U x m (- Z.of_nat p).
Proof.
  intros HU Hp. unfold fmtF. set (m := roundEven _ U). assert (P : 0 < 10 ^ Z.of_nat p) by (apply Z.pow_pos_nonneg; lia). assert (Hm : 0 <= m) by (apply (roundEven_le _ U 0 (Z.abs x * 10 ^ Z.of_nat p)); [exact HU|]; nia).
  set (a := m / 10 ^ Z.of_nat p) in *. set (b := m mod 10 ^ Z.of_nat p) in *. set (neg := x <? 0). assert (Ha : 0 <= a) by (apply Z.div_pos; lia). assert (Hb : 0 <= b < 10 ^ Z.of_nat p) by (apply Z.mod_pos_bound; lia).
  exists (sgOf neg * m). split.
  - change (if neg then "-" else "") with (sgText neg). exists (sgText neg ++ showZ a ++ "." ++ digs p b)%string. split.
    + apply run_padded. intros d. replace (sgText neg ++ showZ a ++ "." ++ digs p b)%string with ((sgText neg ++ showZ a) ++ ("." ++ digs p b))%string by (rewrite !sapp_assoc; reflexivity).
      refine (run_then _ _ _ [] _ _ _ [] _ _ (run_signed neg (showZ a) d (showZ_ne a) (showZ_digits a Ha)) _). apply run_point. apply digs_digits.
    + assert (D := decimal_plain neg (showZ a) (digs p b) m (showZ_ne a) (showZ_digits a Ha) (digs_digits p b)). rewrite digs_length in D. apply D.
      rewrite (digitsFrom_app _ _ _ _ (digitsFrom_showZ a Ha)). rewrite <- (sapp_nil (digs p b)), digitsFrom_digs by lia. cbn [digitsFrom]. rewrite (Z.mod_small b) by lia. f_equal. assert (E := Z.div_mod m (10 ^ Z.of_nat p) ltac:(lia)). fold a b in E. lia.
  - assert (SX : x = sgOf neg * Z.abs x) by (unfold neg, sgOf; destruct (Z.ltb_spec x 0); lia). assert (SA : Z.abs (sgOf neg) = 1) by (unfold sgOf; destruct neg; reflexivity).
    unfold within. rewrite Z.opp_involutive, (tens_neg (- Z.of_nat p)), (tens_nonneg (Z.of_nat p)) by lia. replace (sgOf neg * m * 1 * U - x * 10 ^ Z.of_nat p) with (sgOf neg * (m * U - Z.abs x * 10 ^ Z.of_nat p)) by (rewrite SX at 2; ring). rewrite Z.abs_mul, SA.
    assert (R := roundEven_spec (Z.abs x * 10 ^ Z.of_nat p) U HU). fold m in R. set (A := Z.abs (m * U - Z.abs x * 10 ^ Z.of_nat p)) in *. replace (2 * 10 ^ Z.of_nat p * (1 * A)) with (2 * A * 10 ^ Z.of_nat p) by ring. apply Z.mul_le_mono_nonneg_r; lia.
Qed.
(** a text that denotes a number exactly *)
Lemma floatOf_exact U x m k : equalTo U x m k -> floatOf U m k = Some (VFloat (FNum x)).
Proof.
  unfold equalTo, floatOf. intros H. destruct (Z.leb_spec 0 k).
  - rewrite (tens_nonneg k), (tens_neg (- k)) in H by lia. do 3 f_equal. lia.
  - rewrite (tens_neg k), (tens_nonneg (- k)) in H by lia. assert (0 < 10 ^ (- k)) by (apply Z.pow_pos_nonneg; lia). replace (m * U) with (x * 10 ^ (- k)) by lia. rewrite Z.mod_mul, Z.div_mul by lia. reflexivity.
Qed.
(** %i *)
Lemma showZ_run z d : scan Idle d (showZ z) = Some ([], InNum (showZ z), d).
Proof.
  destruct (Z.ltb_spec z 0).
  - rewrite showZ_neg by exact H. exact (run_signed true (showZ (- z)) d (showZ_ne _) (showZ_digits (- z) ltac:(lia))).
  - exact (run_signed false (showZ z) d (showZ_ne _) (showZ_digits z ltac:(lia))).
Qed.
Lemma number_showZ (float : Z -> Z -> option pyval) z : number float (showZ z) = Some (VInt z).
Proof.
  unfold number. assert (E : exists neg, showZ z = (sgText neg ++ showZ (Z.abs z))%string /\ sgOf neg * Z.abs z = z).
  { destruct (Z.ltb_spec z 0); [exists true|exists false]; cbn [sgText sgOf String.append]; (split; [|lia]); [rewrite showZ_neg by lia; do 2 f_equal; lia|f_equal; lia]. }
  destruct E as (neg & E1 & E2). assert (DD := showZ_digits (Z.abs z) ltac:(lia)). assert (SS := signed_digits neg (showZ (Z.abs z)) (showZ_ne _) DD ""). rewrite sapp_nil in SS.
  assert (D : decimal (showZ z) = None). { unfold decimal. rewrite E1, SS. rewrite splitAt_none by (auto; reflexivity). reflexivity. }
  rewrite D, E1, SS, (digits_showZ (Z.abs z)) by lia. cbn [Base.obind]. rewrite E2, <- E1, String.eqb_refl. reflexivity.
Qed.
