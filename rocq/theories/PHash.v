(** Proofs: the MD5 routine computes the digest of RFC 1321. *)
From Coq Require Import ZArith List Lia.
From Verif Require Import PBase MHash SHash.
From Coq Require Import ZifyBool.
Import ListNotations.
Open Scope Z_scope.
Open Scope list_scope.

(** ** words *)
Definition isWord (x : Z) : Prop := 0 <= x < 2 ^ 32.
Lemma u32_mod x : u32 x = x mod 2 ^ 32.
Proof. unfold u32. change 0xffffffff with (Z.ones 32). apply Z.land_ones. lia. Qed.
Lemma u64_mod x : u64 x = x mod 2 ^ 64.
Proof. unfold u64. change 0xffffffffffffffff with (Z.ones 64). apply Z.land_ones. lia. Qed.
Lemma u8_mod x : u8 x = x mod 256.
Proof. unfold u8. change 0xff with (Z.ones 8). apply Z.land_ones. lia. Qed.
Lemma mod_word x : isWord (x mod 2 ^ 32).
Proof. unfold isWord. apply Z.mod_pos_bound. lia. Qed.
Lemma word_high x i : isWord x -> 32 <= i -> Z.testbit x i = false.
Proof. intros H Hi. rewrite <- (Z.mod_small x (2 ^ 32)) by exact H. apply Z.mod_pow2_bits_high. lia. Qed.
Lemma notw_mod x : isWord x -> notw x = Z.lnot x mod 2 ^ 32.
Proof.
  intros H. unfold notw, isWord in *. unfold Z.lnot. apply (Z.mod_unique _ _ (-1)); [|lia]. left. lia.
Qed.
Lemma notw_bits x i : isWord x -> 0 <= i -> Z.testbit (notw x) i = (i <? 32) && negb (Z.testbit x i).
Proof.
  intros H Hi. rewrite (notw_mod x H). destruct (Z.ltb_spec i 32) as [Hl|Hl].
  - rewrite Z.mod_pow2_bits_low by lia. rewrite Z.lnot_spec by lia. reflexivity.
  - rewrite Z.mod_pow2_bits_high by lia. reflexivity.
Qed.
Definition roundOf (f : func) : Z := match f with FF => 0 | FG => 1 | FH | FH2 => 2 | FI => 3 end.
Lemma fval_aux f x y z : isWord x -> isWord y -> isWord z -> fval f x y z = aux (roundOf f) x y z.
Proof.
  intros Hx Hy Hz. destruct f; cbn [fval roundOf aux].
  - apply Z.bits_inj'. intros i Hi. rewrite ?Z.lxor_spec, ?Z.land_spec, ?Z.lor_spec, ?Z.lxor_spec, ?Z.land_spec, (notw_bits x i Hx Hi).
    destruct (Z.ltb_spec i 32) as [Hl|Hl]; [destruct (Z.testbit x i), (Z.testbit y i), (Z.testbit z i); reflexivity|]. rewrite (word_high x i), (word_high y i), (word_high z i) by assumption. reflexivity.
  - apply Z.bits_inj'. intros i Hi. rewrite ?Z.lxor_spec, ?Z.land_spec, ?Z.lor_spec, ?Z.lxor_spec, ?Z.land_spec, (notw_bits z i Hz Hi).
    destruct (Z.ltb_spec i 32) as [Hl|Hl]; [destruct (Z.testbit x i), (Z.testbit y i), (Z.testbit z i); reflexivity|]. rewrite (word_high x i), (word_high y i), (word_high z i) by assumption. reflexivity.
  - reflexivity.
  - rewrite Z.lxor_assoc. reflexivity.
  - rewrite u32_mod, <- (notw_mod z Hz). reflexivity.
Qed.
Lemma add_lor x y n : 0 <= n -> 0 <= x < 2 ^ n -> Z.lor x (Z.shiftl y n) = x + y * 2 ^ n.
Proof.
  intros Hn Hx. rewrite Z.shiftl_mul_pow2 by lia. assert (Hl : Z.land x (y * 2 ^ n) = 0).
  { apply Z.bits_inj'. intros i Hi. rewrite Z.land_spec, Z.bits_0. destruct (Z.lt_ge_cases i n).
    - rewrite (Z.mul_pow2_bits_low y n i) by lia. apply andb_false_r.
    - rewrite <- (Z.mod_small x (2 ^ n)) by exact Hx. rewrite Z.mod_pow2_bits_high by lia. reflexivity. }
  rewrite <- (Z.lxor_lor _ _ Hl). symmetry. apply Z.add_nocarry_lxor. exact Hl.
Qed.
Lemma rotl_code s a : 0 < s < 32 -> isWord a -> Z.lor (u32 (Z.shiftl a s)) (Z.shiftr (Z.land a 0xffffffff) (32 - s)) = rotl s a.
Proof.
  intros Hs Ha. unfold rotl. rewrite u32_mod. change (Z.land a 0xffffffff) with (u32 a). rewrite u32_mod, (Z.mod_small a) by exact Ha. rewrite Z.shiftl_mul_pow2, Z.shiftr_div_pow2 by lia.
  assert (Hl : Z.land ((a * 2 ^ s) mod 2 ^ 32) (a / 2 ^ (32 - s)) = 0).
  { apply Z.bits_inj'. intros i Hi. rewrite Z.land_spec, Z.bits_0. destruct (Z.lt_ge_cases i s).
    - rewrite Z.mod_pow2_bits_low by lia. rewrite Z.mul_pow2_bits_low by lia. reflexivity.
    - rewrite <- Z.shiftr_div_pow2, Z.shiftr_spec by lia. rewrite (word_high a) by (assumption || lia). apply andb_false_r. }
  rewrite <- (Z.lxor_lor _ _ Hl). symmetry. apply Z.add_nocarry_lxor. exact Hl.
Qed.

(** ** the 64 operations *)
Definition lineFunc (i : Z) : func := match i / 16 with 0 => FF | 1 => FG | 2 => if i mod 2 =? 0 then FH else FH2 | _ => FI end.
(** who plays the parts of a, b, c, d *)
Definition role (i : Z) : reg := match i mod 4 with 0 => Ra | 1 => Rd | 2 => Rc | _ => Rb end.
Definition lineOf (i : Z) : stepLine := mkStep (lineFunc i) (role i) (role (i + 3)) (role (i + 2)) (role (i + 1)) (whichWord i) (nth (Z.to_nat i) sineTable 0) (howFar i).
Lemma lines_table : stepLines = map lineOf (zrange 0 63).
Proof. vm_compute. reflexivity. Qed.
Definition wordsIn (r : regs) : Prop := forall x, isWord (rget r x).
Definition view (i : Z) (r : regs) : Z * Z * Z * Z := (rget r (role i), rget r (role (i + 3)), rget r (role (i + 2)), rget r (role (i + 1))).
Lemma rget_same r x v : rget (rset r x v) x = v. Proof. destruct x; reflexivity. Qed.
Lemma rget_other r x y v : x <> y -> rget (rset r x v) y = rget r y. Proof. destruct x, y; congruence || reflexivity. Qed.
Lemma role_cases i : 0 <= i -> exists k, (k = 0 \/ k = 1 \/ k = 2 \/ k = 3) /\ i mod 4 = k /\ (i + 1) mod 4 = (k + 1) mod 4 /\ (i + 2) mod 4 = (k + 2) mod 4 /\ (i + 3) mod 4 = (k + 3) mod 4 /\ (i + 1 + 3) mod 4 = k /\ (i + 1 + 2) mod 4 = (k + 3) mod 4 /\ (i + 1 + 1) mod 4 = (k + 2) mod 4.
Proof. intros Hi. exists (i mod 4). pose proof (Z.mod_pos_bound i 4 ltac:(lia)). split; [lia|]. repeat split; Z.div_mod_to_equations; lia. Qed.
Lemma round_line i : 0 <= i < 64 -> roundOf (lineFunc i) = i / 16 /\ 0 < howFar i < 32 /\ 0 <= whichWord i < 16.
Proof.
  intros Hi. assert (H : forallb (fun i => (roundOf (lineFunc i) =? i / 16) && (0 <? howFar i) && (howFar i <? 32) && (0 <=? whichWord i) && (whichWord i <? 16)) (zrange 0 63) = true) by (vm_compute; reflexivity).
  rewrite forallb_forall in H. specialize (H i ltac:(apply In_zrange; lia)). lia.
Qed.
Lemma addw4 a b c d : addw (addw (addw a b) c) d = (a + b + c + d) mod 2 ^ 32.
Proof. unfold addw. rewrite Zplus_mod_idemp_l. rewrite <- (Z.add_assoc (_ mod _) c d), Zplus_mod_idemp_l. f_equal. lia. Qed.
Lemma step_view (word : Z -> Z) X i r : (forall k, 0 <= k < 16 -> word k = nth (Z.to_nat k) X 0) -> 0 <= i < 64 -> wordsIn r ->
  view (i + 1) (execStep word r (lineOf i)) = operation X (view i r) i /\ wordsIn (execStep word r (lineOf i)).
Proof.
  intros HX Hi HW. destruct (round_line i Hi) as (R1 & R2 & R3). unfold execStep, lineOf. cbn [st_f st_a st_b st_c st_d st_n st_t st_s].
  set (a := rget r (role i)). set (b := rget r (role (i + 3))). set (c := rget r (role (i + 2))). set (d := rget r (role (i + 1))).
  rewrite (fval_aux (lineFunc i) b c d (HW _) (HW _) (HW _)), R1.
  rewrite (HX _ R3), !u32_mod.
  assert (EA : (a + (aux (i / 16) b c d + nth (Z.to_nat (whichWord i)) X 0 + nth (Z.to_nat i) sineTable 0) mod 2 ^ 32) mod 2 ^ 32 = addw (addw (addw a (aux (i / 16) b c d)) (nth (Z.to_nat (whichWord i)) X 0)) (nth (Z.to_nat i) sineTable 0)).
  { rewrite addw4, Zplus_mod_idemp_r. f_equal. lia. }
  rewrite EA. set (v := addw (addw (addw a _) _) _). assert (Hv : isWord v) by (unfold v, addw; apply mod_word). rewrite <- (u32_mod (Z.shiftl v (howFar i))). rewrite (rotl_code _ _ R2 Hv).
  assert (EN : (rotl (howFar i) v + b) mod 2 ^ 32 = addw b (rotl (howFar i) v)) by (unfold addw; f_equal; lia). rewrite EN. set (w := addw b (rotl (howFar i) v)).
  split.
  - unfold operation, view. fold a b c d. fold v. fold w. destruct (role_cases i ltac:(lia)) as (k & Hk & E0 & E1 & E2 & E3 & F3 & F2 & F1).
    unfold d, b, c, role in *. rewrite E0, E1, E2, E3, F3, F2, F1 in *. destruct Hk as [->|[->|[->| ->]]]; cbn; reflexivity.
  - intros x. assert (HwW : isWord w) by (unfold w, addw; apply mod_word). clearbody w. clear - HW HwW. destruct (role i), x; cbn [rset rget r_a r_b r_c r_d]; try exact HwW; apply (HW Ra) || apply (HW Rb) || apply (HW Rc) || apply (HW Rd).
Qed.
Lemma steps_view word X n : (forall k, 0 <= k < 16 -> word k = nth (Z.to_nat k) X 0) -> forall i r r', 0 <= i -> i + Z.of_nat n <= 64 -> wordsIn r ->
  r' = fold_left (execStep word) (map lineOf (zseq i n)) r -> view (i + Z.of_nat n) r' = fold_left (operation X) (zseq i n) (view i r) /\ wordsIn r'.
Proof.
  intros HX. induction n as [|n IH]; intros i r r' Hi Hn HW ->.
  - cbn [zseq map fold_left]. split; [f_equal; lia|exact HW].
  - cbn [zseq map fold_left]. destruct (step_view word X i r HX ltac:(lia) HW) as [V W']. destruct (IH (i + 1) (execStep word r (lineOf i)) _ ltac:(lia) ltac:(lia) W' eq_refl) as [A B]. split; [|exact B].
    rewrite <- V. rewrite <- A. f_equal. lia.
Qed.
Definition tuple (r : regs) : Z * Z * Z * Z := (r_a r, r_b r, r_c r, r_d r).
Lemma view_start r : view 0 r = tuple r. Proof. reflexivity. Qed.
Lemma view_end r : view (0 + Z.of_nat 64) r = tuple r. Proof. reflexivity. Qed.
Lemma all_operations : zrange 0 63 = zseq 0 64. Proof. reflexivity. Qed.
Lemma rounds_ok word X r r' : (forall k, 0 <= k < 16 -> word k = nth (Z.to_nat k) X 0) -> wordsIn r ->
  r' = fold_left (execStep word) stepLines r -> tuple r' = fold_left (operation X) (zrange 0 63) (tuple r) /\ wordsIn r'.
Proof.
  intros HX HW E. rewrite lines_table, all_operations in E. rewrite all_operations. destruct (steps_view word X 64%nat HX 0 r r' ltac:(lia) ltac:(lia) HW E) as [A B]. split; [|exact B].
  rewrite <- (view_end r'), <- (view_start r). exact A.
Qed.

(** ** bytes *)
Lemma fromBytes_of l : fromBytes l = ofBytes l. Proof. induction l as [|b l IH]; [reflexivity|]. cbn [fromBytes fold_right ofBytes]. fold (fromBytes l). rewrite IH. reflexivity. Qed.
Lemma wordBytes_to w : wordBytes w = toBytes 4 w.
Proof.
  unfold wordBytes. cbn [toBytes]. rewrite !u8_mod, !Z.shiftr_div_pow2 by lia. rewrite !Z.div_div by lia. reflexivity.
Qed.
Lemma four_bytes l n : (n + 4 <= List.length l)%nat -> exists b0 b1 b2 b3, firstn 4 (skipn n l) = [b0; b1; b2; b3] /\ byteAt l (Z.of_nat n) = b0 /\ byteAt l (Z.of_nat n + 1) = b1 /\ byteAt l (Z.of_nat n + 2) = b2 /\ byteAt l (Z.of_nat n + 3) = b3.
Proof.
  revert n. induction l as [|x l IH]; intros n H; [cbn in H; lia|]. destruct n as [|n].
  - destruct l as [|b1 [|b2 [|b3 l]]]; cbn in H; try lia. exists x, b1, b2, b3. repeat split; reflexivity.
  - cbn in H. destruct (IH n ltac:(lia)) as (b0 & b1 & b2 & b3 & E & A0 & A1 & A2 & A3). exists b0, b1, b2, b3. split; [exact E|].
    assert (Sh : forall k, 0 <= k -> byteAt (x :: l) (Z.of_nat (S n) + k) = byteAt l (Z.of_nat n + k)).
    { intros k Hk. unfold byteAt. rewrite zget_cons. destruct (Z.eqb_spec (Z.of_nat (S n) + k) 0); [lia|]. replace (Z.of_nat (S n) + k - 1) with (Z.of_nat n + k) by lia. reflexivity. }
    rewrite <- (Z.add_0_r (Z.of_nat (S n))) at 1. rewrite !Sh by lia. rewrite Z.add_0_r. auto.
Qed.
Lemma wordAt_words block k : List.length block = 64%nat -> Forall isByte block -> 0 <= k < 16 -> wordAt block k = nth (Z.to_nat k) (blockWords block) 0.
Proof.
  intros HL HB Hk. unfold blockWords. set (j := Z.to_nat k). assert (Hj : (j < 16)%nat) by lia. replace k with (Z.of_nat j) by lia. clearbody j. clear k Hk.
  rewrite (nth_indep _ 0 (ofBytes (firstn 4 (skipn (4 * 0) block)))) by (rewrite map_length, seq_length; exact Hj). rewrite (map_nth (fun i => ofBytes (firstn 4 (skipn (4 * i) block))) (seq 0 16) 0%nat j). rewrite seq_nth by exact Hj. cbn [Nat.add].
  destruct (four_bytes block (4 * j)%nat ltac:(lia)) as (b0 & b1 & b2 & b3 & E & A0 & A1 & A2 & A3). rewrite E. unfold wordAt. replace (Z.of_nat j * 4) with (Z.of_nat (4 * j)) by lia. rewrite A0, A1, A2, A3. cbn [ofBytes].
  assert (HBs : isByte b0 /\ isByte b1 /\ isByte b2 /\ isByte b3).
  { assert (X : Forall isByte [b0; b1; b2; b3]).
    { rewrite <- E. apply Forall_forall. intros b Hb. rewrite Forall_forall in HB. apply HB. assert (X : In b (skipn (4 * j) block)) by (rewrite <- (firstn_skipn 4 (skipn (4 * j) block)); apply in_or_app; left; exact Hb).
      rewrite <- (firstn_skipn (4 * j) block). apply in_or_app. right. exact X. }
    inversion_clear X as [|? ? X0 X']. inversion_clear X' as [|? ? X1 X'']. inversion_clear X'' as [|? ? X2 X']. inversion_clear X' as [|? ? X3 _]. auto. }
  destruct HBs as (B0 & B1 & B2 & B3). unfold isByte in *. rewrite (add_lor b0 b1 8) by lia. rewrite (add_lor (b0 + b1 * 2 ^ 8) b2 16) by lia. rewrite (add_lor (b0 + b1 * 2 ^ 8 + b2 * 2 ^ 16) b3 24) by lia. lia.
Qed.
Lemma block_ok r block : List.length block = 64%nat -> Forall isByte block -> wordsIn r -> tuple (bodyBlock r block) = digestBlock (tuple r) block /\ wordsIn (bodyBlock r block).
Proof.
  intros HL HB HW. unfold bodyBlock. remember (fold_left (execStep (wordAt block)) stepLines r) as r' eqn:E. destruct (rounds_ok (wordAt block) (blockWords block) r r' (fun k => wordAt_words block k HL HB) HW E) as [A B]. clear E. split.
  - unfold digestBlock. unfold tuple at 2. rewrite <- A. unfold tuple. cbn [r_a r_b r_c r_d]. rewrite !u32_mod. unfold addw. repeat (f_equal; [|try lia]). all: f_equal; lia.
  - intros [| | |]; cbn [rget r_a r_b r_c r_d]; rewrite u32_mod; apply mod_word.
Qed.

(** ** blocks *)
Fixpoint blocksOf (n : nat) (l : list Z) : list (list Z) := match n with O => [] | S n' => firstn 64 l :: blocksOf n' (skipn 64 l) end.
Lemma skipn_skipn' {A} (l : list A) a b : skipn a (skipn b l) = skipn (b + a) l.
Proof. revert l. induction b as [|b IH]; intros l; [reflexivity|]. destruct l as [|x l]; cbn [skipn Nat.add]; [destruct a; reflexivity|]. apply IH. Qed.
Lemma blocksOf_map n l : blocksOf n l = map (fun i => firstn 64 (skipn (64 * i) l)) (seq 0 n).
Proof.
  revert l. induction n as [|n IH]; intros l; [reflexivity|]. cbn [blocksOf seq map]. f_equal. rewrite IH. rewrite <- seq_shift, map_map. apply map_ext. intros i. rewrite skipn_skipn'. do 2 f_equal. lia.
Qed.
Lemma blocks_of m : blocks m = blocksOf (List.length m / 64) m.
Proof. symmetry. apply blocksOf_map. Qed.
Lemma blocksOf_app n1 n2 x y : List.length x = (64 * n1)%nat -> blocksOf (n1 + n2) (x ++ y) = blocksOf n1 x ++ blocksOf n2 y.
Proof.
  revert x. induction n1 as [|n1 IH]; intros x H; [destruct x; [reflexivity|cbn in H; lia]|]. cbn [Nat.add blocksOf app]. rewrite firstn_app, skipn_app. replace (64 - List.length x)%nat with 0%nat by lia.
  rewrite firstn_O, skipn_O, app_nil_r. f_equal. apply IH. rewrite skipn_length. lia.
Qed.
Lemma Forall_firstn {A} (P : A -> Prop) n l : Forall P l -> Forall P (firstn n l).
Proof. intros H. revert n. induction H as [|x l Hx H IH]; intros [|n]; cbn [firstn]; constructor; auto. Qed.
Lemma Forall_skipn {A} (P : A -> Prop) n l : Forall P l -> Forall P (skipn n l).
Proof. intros H. revert n. induction H as [|x l Hx H IH]; intros [|n]; cbn [skipn]; auto. Qed.
Global Opaque bodyBlock digestBlock.
Lemma blocksOf_fold {A} (f : A -> list Z -> A) n l x : fold_left f (blocksOf (S n) l) x = fold_left f (blocksOf n (skipn 64 l)) (f x (firstn 64 l)). Proof. reflexivity. Qed.
Lemma body_S n r data : body (S n) r data = body n (bodyBlock r (firstn 64 data)) (skipn 64 data). Proof. reflexivity. Qed.
Lemma body_ok n : forall r data, (64 * n <= List.length data)%nat -> Forall isByte data -> wordsIn r ->
  tuple (fst (body n r data)) = fold_left digestBlock (blocksOf n data) (tuple r) /\ wordsIn (fst (body n r data)) /\ snd (body n r data) = skipn (64 * n) data.
Proof.
  induction n as [|n IH]; intros r data HL HB HW; [split; [reflexivity|]; split; [exact HW|reflexivity]|]. rewrite body_S.
  assert (L1 : List.length (firstn 64 data) = 64%nat) by (rewrite firstn_length; lia). assert (L2 : (64 * n <= List.length (skipn 64 data))%nat) by (rewrite skipn_length; lia). assert (EN : (64 * S n = 64 + 64 * n)%nat) by lia. rewrite EN, <- skipn_skipn'.
  assert (EB : fold_left digestBlock (blocksOf (S n) data) (tuple r) = fold_left digestBlock (blocksOf n (skipn 64 data)) (digestBlock (tuple r) (firstn 64 data))) by apply blocksOf_fold. rewrite EB. clear EB EN.
  pose proof (Forall_firstn isByte 64 data HB) as B1. pose proof (Forall_skipn isByte 64 data HB) as B2. generalize dependent (firstn 64 data). intros block L1 B1. generalize dependent (skipn 64 data). intros rest L2 B2.
  destruct (block_ok r block L1 B1 HW) as [A B]. rewrite <- A. apply IH; assumption.
Qed.

(** ** the buffer *)
Lemma blit_app x y d : blit (x ++ y) (List.length x) d = x ++ d ++ skipn (List.length d) y.
Proof.
  unfold blit. rewrite firstn_app, Nat.sub_diag, firstn_all, firstn_O, app_nil_r. do 2 f_equal. rewrite skipn_app. rewrite skipn_all2 by lia. cbn [app]. f_equal. lia.
Qed.
Lemma toBytes_length n x : List.length (toBytes n x) = n. Proof. revert x. induction n as [|n IH]; intros x; cbn [toBytes List.length]; [reflexivity|]. rewrite IH. reflexivity. Qed.
Lemma toBytes_bytes n x : Forall isByte (toBytes n x).
Proof. revert x. induction n as [|n IH]; intros x; cbn [toBytes]; constructor; [|apply IH]. unfold isByte. apply Z.mod_pos_bound. lia. Qed.
Lemma toBytes_app n k : forall x y, 0 <= x < 256 ^ Z.of_nat n -> toBytes (n + k) (x + 256 ^ Z.of_nat n * y) = toBytes n x ++ toBytes k y.
Proof.
  induction n as [|n IH]; intros x y Hx.
  - cbn [Nat.add toBytes app Z.of_nat] in *. rewrite Z.pow_0_r in *. f_equal. lia.
  - cbn [Nat.add toBytes app]. rewrite Nat2Z.inj_succ, Z.pow_succ_r in * by lia. f_equal.
    + rewrite <- Z.mul_assoc, (Z.mul_comm 256), Z.mod_add by lia. reflexivity.
    + rewrite <- IH. 2: { split; [apply Z.div_pos; lia|apply Z.div_lt_upper_bound; lia]. } f_equal. rewrite <- Z.mul_assoc, (Z.mul_comm 256), Z.div_add by lia. reflexivity.
Qed.

(** what a context holds after the bytes m *)
Record holds (m : list Z) (ctx : md5ctx) : Prop := {
  ho_parts : exists n full tail, m = full ++ tail /\ List.length full = (64 * n)%nat /\ (List.length tail < 64)%nat /\
     tuple (c_regs ctx) = fold_left digestBlock (blocksOf n full) startBuffer /\ firstn (List.length tail) (c_buffer ctx) = tail;
  ho_words : wordsIn (c_regs ctx);
  ho_buffer : List.length (c_buffer ctx) = 64%nat /\ Forall isByte (c_buffer ctx);
  ho_lo : c_lo ctx = zlen m mod 2 ^ 29;
  ho_hi : c_hi ctx = (zlen m / 2 ^ 29) mod 2 ^ 32 }.
Lemma init_holds : holds [] MD5_Init.
Proof.
  constructor.
  - exists 0%nat, [], []. cbn [app List.length]. split; [reflexivity|]. split; [reflexivity|]. split; [lia|]. split; reflexivity.
  - intros [| | |]; unfold isWord; cbn; lia.
  - cbn [MD5_Init c_buffer]. split; [rewrite repeat_length; reflexivity|]. apply Forall_forall. intros b Hb. apply repeat_spec in Hb. subst b. unfold isByte. lia.
  - reflexivity.
  - reflexivity.
Qed.
Lemma land_63 x : Z.land x 0x3f = x mod 64. Proof. change 0x3f with (Z.ones 6). rewrite Z.land_ones by lia. reflexivity. Qed.
Lemma land_29 x : Z.land x 0x1fffffff = x mod 2 ^ 29. Proof. change 0x1fffffff with (Z.ones 29). rewrite Z.land_ones by lia. reflexivity. Qed.
(** the counters *)
Lemma lo_ok M s : u32 (Z.land (u64 (M mod 2 ^ 29 + s)) 0x1fffffff) = (M + s) mod 2 ^ 29.
Proof.
  rewrite land_29, u64_mod, u32_mod. rewrite (Z.mod_small (_ mod 2 ^ 29) (2 ^ 32)) by (pose proof (Z.mod_pos_bound ((M mod 2 ^ 29 + s) mod 2 ^ 64) (2 ^ 29) ltac:(lia)); lia).
  rewrite <- (Znumtheory.Zmod_div_mod (2 ^ 29) (2 ^ 64)); [apply Zplus_mod_idemp_l|lia|lia|]. exists (2 ^ 35). reflexivity.
Qed.
Lemma hi_ok M s : 0 <= s -> 0 <= M ->
  u32 ((if (M + s) mod 2 ^ 29 <? M mod 2 ^ 29 then u32 ((M / 2 ^ 29) mod 2 ^ 32 + 1) else (M / 2 ^ 29) mod 2 ^ 32) + Z.shiftr s 29) = ((M + s) / 2 ^ 29) mod 2 ^ 32.
Proof.
  intros Hs HM. rewrite Z.shiftr_div_pow2 by lia. rewrite !u32_mod. change (2 ^ 29) with 536870912. destruct (Z.ltb_spec ((M + s) mod 536870912) (M mod 536870912)) as [H|H].
  - rewrite !Zplus_mod_idemp_l. rewrite <- Z.add_assoc, Zplus_mod_idemp_l. f_equal. Z.div_mod_to_equations; lia.
  - rewrite Zplus_mod_idemp_l. f_equal. Z.div_mod_to_equations; lia.
Qed.
Lemma zlen_length {A} (l : list A) : zlen l = Z.of_nat (List.length l). Proof. reflexivity. Qed.
Lemma update_holds m ctx data : holds m ctx -> Forall isByte data -> holds (m ++ data) (MD5_Update ctx data).
Proof.
  intros [(n & full & tail & -> & HF & HT & HR & HBf) HW [HL HB] HLo HHi] HD.
  assert (HU : Z.land (c_lo ctx) 0x3f = zlen tail).
  { rewrite HLo, land_63, !zlen_length, app_length, HF. rewrite <- (Znumtheory.Zmod_div_mod 64 (2 ^ 29)); [|lia|lia|exists (2 ^ 23); reflexivity]. rewrite Nat2Z.inj_add, Nat2Z.inj_mul. change (Z.of_nat 64) with 64.
    rewrite Z.add_comm, Z.mul_comm, Z.mod_add by lia. apply Z.mod_small. lia. }
  assert (LO : u32 (Z.land (u64 (c_lo ctx + zlen data)) 0x1fffffff) = zlen ((full ++ tail) ++ data) mod 2 ^ 29) by (rewrite HLo, lo_ok, (zlen_app (full ++ tail)); reflexivity).
  assert (HI : u32 ((if zlen ((full ++ tail) ++ data) mod 2 ^ 29 <? c_lo ctx then u32 (c_hi ctx + 1) else c_hi ctx) + Z.shiftr (zlen data) 29) = (zlen ((full ++ tail) ++ data) / 2 ^ 29) mod 2 ^ 32).
  { rewrite HLo, HHi, (zlen_app (full ++ tail)). apply hi_ok; apply zlen_nonneg. }
  (* what follows when the bytes so far fill k blocks *)
  assert (RST : forall k r buffer pre d, full ++ tail ++ data = pre ++ d -> List.length pre = (64 * k)%nat -> tuple r = fold_left digestBlock (blocksOf k pre) startBuffer -> wordsIn r ->
     List.length buffer = 64%nat -> Forall isByte buffer -> Forall isByte d ->
     holds ((full ++ tail) ++ data) (let '(r, d) := if 64 <=? zlen d then body (Z.to_nat (zlen d / 64)) r d else (r, d) in mkCtx (zlen ((full ++ tail) ++ data) mod 2 ^ 29) ((zlen ((full ++ tail) ++ data) / 2 ^ 29) mod 2 ^ 32) r (blit buffer 0 d))).
  { intros k r buffer pre d E HP HR' HW' HL' HB' HD'. set (q := Z.to_nat (zlen d / 64)).
    assert (EB : (if 64 <=? zlen d then body q r d else (r, d)) = body q r d).
    { destruct (Z.leb_spec 64 (zlen d)) as [H|H]; [reflexivity|]. unfold q. rewrite Z.div_small by (pose proof (zlen_nonneg d); lia). reflexivity. }
    rewrite EB. assert (HQ : (64 * q <= List.length d < 64 * q + 64)%nat).
    { unfold q. rewrite zlen_length. pose proof (Z.div_mod (Z.of_nat (List.length d)) 64 ltac:(lia)). pose proof (Z.mod_pos_bound (Z.of_nat (List.length d)) 64 ltac:(lia)). lia. }
    destruct (body_ok q r d) as (A & B & C); [lia|exact HD'|exact HW'|]. destruct (body q r d) as [r' d'] eqn:Eb. cbn [fst snd] in A, B, C.
    assert (Hd' : List.length d' = (List.length d - 64 * q)%nat) by (rewrite C, skipn_length; reflexivity).
    constructor; cbn [c_regs c_buffer c_lo c_hi]; auto.
    - exists (k + q)%nat, (pre ++ firstn (64 * q) d), d'. split; [rewrite <- !app_assoc, E, C, firstn_skipn; reflexivity|]. split; [rewrite app_length, firstn_length; lia|]. split; [lia|]. split.
      + rewrite A, HR'. rewrite (blocksOf_app k q pre) by exact HP. rewrite fold_left_app. f_equal. rewrite <- (firstn_skipn (64 * q) d) at 1. rewrite <- (Nat.add_0_r q) at 1. rewrite blocksOf_app by (rewrite firstn_length; lia). cbn [blocksOf]. apply app_nil_r.
      + unfold blit. cbn [firstn app Nat.add]. rewrite firstn_app, Nat.sub_diag, firstn_all, firstn_O. apply app_nil_r.
    - unfold blit. cbn [firstn app Nat.add]. split; [rewrite app_length, skipn_length; lia|]. apply Forall_app. split; [rewrite C; apply Forall_skipn; exact HD'|apply Forall_skipn; exact HB']. }
  assert (ES : c_buffer ctx = tail ++ skipn (List.length tail) (c_buffer ctx)) by (rewrite <- HBf at 1; symmetry; apply firstn_skipn).
  assert (HBt : Forall isByte tail) by (rewrite <- HBf; apply Forall_firstn; exact HB).
  unfold MD5_Update. rewrite HU, LO, HI. destruct (Z.eqb_spec (zlen tail) 0) as [H0|H0].
  - apply (RST n (c_regs ctx) (c_buffer ctx) full data); auto. assert (tail = []) by (destruct tail; [reflexivity|rewrite zlen_length in H0; cbn [List.length] in H0; lia]). subst tail. reflexivity.
  - assert (TN : Z.to_nat (zlen tail) = List.length tail) by (rewrite zlen_length; lia). assert (AN : Z.to_nat (64 - zlen tail) = (64 - List.length tail)%nat) by (rewrite zlen_length; lia). rewrite TN, AN.
    destruct (Z.ltb_spec (zlen data) (64 - zlen tail)) as [HS|HS].
    + rewrite !zlen_length in HS. constructor; cbn [c_regs c_buffer c_lo c_hi]; auto.
      * exists n, full, (tail ++ data). rewrite app_assoc. split; [reflexivity|]. split; [exact HF|]. split; [rewrite app_length; lia|]. split; [exact HR|]. rewrite ES, blit_app. rewrite app_assoc. rewrite firstn_app, Nat.sub_diag, firstn_all, firstn_O. apply app_nil_r.
      * rewrite ES, blit_app. split; [rewrite !app_length, !skipn_length; lia|]. apply Forall_app. split; [exact HBt|]. apply Forall_app. split; [exact HD|]. apply Forall_skipn, Forall_skipn. exact HB.
    + rewrite !zlen_length in HS. set (h := firstn (64 - List.length tail) data). assert (Hh : List.length h = (64 - List.length tail)%nat) by (unfold h; rewrite firstn_length; lia).
      assert (EBl : blit (c_buffer ctx) (List.length tail) h = tail ++ h).
      { rewrite ES, blit_app. rewrite (skipn_all2 (skipn _ _)) by (rewrite skipn_length; lia). rewrite app_nil_r. reflexivity. }
      rewrite EBl. assert (HBh : Forall isByte (tail ++ h)) by (apply Forall_app; split; [exact HBt|apply Forall_firstn; exact HD]).
      assert (HLh : List.length (tail ++ h) = 64%nat) by (rewrite app_length; lia).
      destruct (body_ok 1 (c_regs ctx) (tail ++ h)) as (A & B & _); [lia|exact HBh|exact HW|].
      apply (RST (n + 1)%nat (fst (body 1 (c_regs ctx) (tail ++ h))) (tail ++ h) (full ++ tail ++ h) (skipn (64 - List.length tail) data)); auto.
      * unfold h. rewrite <- !app_assoc. rewrite firstn_skipn. reflexivity.
      * rewrite app_length. lia.
      * rewrite A, HR. rewrite blocksOf_app by exact HF. rewrite fold_left_app. reflexivity.
      * apply Forall_skipn. exact HD.
Qed.

(** ** the end *)
Lemma length_bytes M : 0 <= M -> wordBytes (u32 (Z.shiftl (M mod 2 ^ 29) 3)) ++ wordBytes ((M / 2 ^ 29) mod 2 ^ 32) = toBytes 8 ((8 * M) mod 2 ^ 64).
Proof.
  intros HM. rewrite !wordBytes_to, u32_mod, Z.shiftl_mul_pow2 by lia. change (2 ^ 3) with 8. pose proof (Z.mod_pos_bound M (2 ^ 29) ltac:(lia)) as H1. rewrite (Z.mod_small (_ * 8)) by lia.
  pose proof (toBytes_app 4 4 (M mod 2 ^ 29 * 8) ((M / 2 ^ 29) mod 2 ^ 32)) as T. change (256 ^ Z.of_nat 4) with (2 ^ 32) in T. rewrite <- T by lia. clear T. change (4 + 4)%nat with 8%nat. f_equal.
  change (2 ^ 64) with (8 * 2 ^ 61). rewrite Z.mul_mod_distr_l by lia. change (2 ^ 61) with (2 ^ 29 * 2 ^ 32). rewrite Z.rem_mul_r by lia. change (2 ^ 32) with (8 * 2 ^ 29) at 1. ring.
Qed.
Lemma final_ok m ctx : holds m ctx -> MD5_Final ctx = md5 m.
Proof.
  intros [(n & full & tail & EM & HF & HT & HR & HBf) HW [HL HB] HLo HHi].
  assert (HU : Z.land (c_lo ctx) 0x3f = zlen tail).
  { rewrite HLo, EM, land_63, !zlen_length, app_length, HF. rewrite <- (Znumtheory.Zmod_div_mod 64 (2 ^ 29)); [|lia|lia|exists (2 ^ 23); reflexivity]. rewrite Nat2Z.inj_add, Nat2Z.inj_mul. change (Z.of_nat 64) with 64.
    rewrite Z.add_comm, Z.mul_comm, Z.mod_add by lia. apply Z.mod_small. lia. }
  assert (ES : c_buffer ctx = tail ++ skipn (List.length tail) (c_buffer ctx)) by (rewrite <- HBf at 1; symmetry; apply firstn_skipn).
  assert (HBt : Forall isByte tail) by (rewrite <- HBf; apply Forall_firstn; exact HB).
  assert (LB : wordBytes (u32 (Z.shiftl (c_lo ctx) 3)) ++ wordBytes (c_hi ctx) = toBytes 8 ((8 * zlen m) mod 2 ^ 64)) by (rewrite HLo, HHi; apply length_bytes; apply zlen_nonneg).
  assert (RB : forall k, Forall isByte (repeat 0 k)) by (intros k; apply Forall_forall; intros b Hb; apply repeat_spec in Hb; subst b; unfold isByte; lia).
  assert (B128 : isByte 0x80) by (unfold isByte; lia).
  assert (PD : padded m = full ++ (tail ++ [128] ++ repeat 0 (Z.to_nat ((55 - zlen m) mod 64)) ++ toBytes 8 ((8 * zlen m) mod 2 ^ 64))) by (unfold padded; rewrite EM at 1; rewrite <- app_assoc; reflexivity).
  assert (MT : (55 - zlen m) mod 64 = if zlen tail <? 56 then 55 - zlen tail else 119 - zlen tail).
  { rewrite EM, zlen_app, !zlen_length, HF, Nat2Z.inj_mul. change (Z.of_nat 64) with 64. destruct (Z.ltb_spec (Z.of_nat (List.length tail)) 56) as [H|H].
    - symmetry. apply (Z.mod_unique _ _ (- Z.of_nat n)); [left; lia|lia].
    - symmetry. apply (Z.mod_unique _ _ (- Z.of_nat n - 1)); [left; lia|lia]. }
  assert (DONE : forall k r block1 block2, padded m = full ++ block1 ++ block2 -> List.length block1 = (64 * k)%nat -> List.length block2 = 64%nat -> Forall isByte block2 ->
     tuple r = fold_left digestBlock (blocksOf k block1) (tuple (c_regs ctx)) -> wordsIn r ->
     (let r := fst (body 1 r block2) in wordBytes (r_a r) ++ wordBytes (r_b r) ++ wordBytes (r_c r) ++ wordBytes (r_d r)) = md5 m).
  { intros k r b1 b2 EP L1 L2 HB2 HR' HW'. destruct (body_ok 1 r b2) as (A & _ & _); [lia|exact HB2|exact HW'|]. unfold md5. rewrite blocks_of, EP. replace (List.length (full ++ b1 ++ b2) / 64)%nat with (n + (k + 1))%nat.
    2: { rewrite !app_length, HF, L1, L2. replace (64 * n + (64 * k + 64))%nat with ((n + (k + 1)) * 64)%nat by lia. rewrite Nat.div_mul by lia. reflexivity. }
    rewrite (blocksOf_app n (k + 1) full) by exact HF. rewrite (blocksOf_app k 1 b1) by exact L1. rewrite !fold_left_app, <- HR, <- HR', <- A. cbv zeta. unfold tuple. rewrite !wordBytes_to. reflexivity. }
  unfold MD5_Final. rewrite HU. assert (TN : Z.to_nat (zlen tail) = List.length tail) by (rewrite zlen_length; lia). rewrite TN. set (rest := skipn (List.length tail) (c_buffer ctx)) in *.
  assert (Lr : List.length rest = (64 - List.length tail)%nat) by (unfold rest; rewrite skipn_length; lia). rewrite ES, blit_app. cbn [List.length].
  assert (TN1 : Z.to_nat (zlen tail + 1) = List.length (tail ++ [128])) by (rewrite app_length, zlen_length; cbn [List.length]; lia).
  destruct (Z.ltb_spec (64 - (zlen tail + 1)) 8) as [H8|H8].
  - rewrite TN1, (app_assoc tail [128]). rewrite blit_app, repeat_length. rewrite (skipn_all2 (skipn 1 rest)) by (rewrite skipn_length; rewrite zlen_length in *; lia). rewrite app_nil_r.
    set (z1 := repeat 0 (Z.to_nat (64 - (zlen tail + 1)))). assert (L1 : List.length ((tail ++ [128]) ++ z1) = 64%nat) by (unfold z1; rewrite !app_length, repeat_length; rewrite zlen_length in *; cbn [List.length]; lia).
    assert (HB1 : Forall isByte ((tail ++ [128]) ++ z1)) by (apply Forall_app; split; [apply Forall_app; split; [exact HBt|constructor; [exact B128|constructor]]|apply RB]).
    destruct (body_ok 1 (c_regs ctx) ((tail ++ [128]) ++ z1)) as (A & B & _); [lia|exact HB1|exact HW|].
    change (Z.to_nat 0) with 0%nat. change (Z.to_nat (64 - 8)) with 56%nat.
    assert (E2 : blit ((tail ++ [128]) ++ z1) 0 (repeat 0 56) = repeat 0 56 ++ skipn 56 ((tail ++ [128]) ++ z1)) by (unfold blit; rewrite repeat_length; reflexivity). rewrite E2.
    assert (E3 : blit (repeat 0 56 ++ skipn 56 ((tail ++ [128]) ++ z1)) 56 (wordBytes (u32 (Z.shiftl (c_lo ctx) 3)) ++ wordBytes (c_hi ctx)) = repeat 0 56 ++ toBytes 8 ((8 * zlen m) mod 2 ^ 64)).
    { rewrite LB. rewrite <- (repeat_length 0 56) at 1. rewrite blit_app. rewrite toBytes_length. rewrite (skipn_all2 (skipn 56 _)) by (rewrite skipn_length; lia). rewrite app_nil_r. reflexivity. }
    rewrite E3. apply (DONE 1%nat _ ((tail ++ [128]) ++ z1)); [|exact L1| | |exact A|exact B].
    + rewrite PD, MT. destruct (Z.ltb_spec (zlen tail) 56) as [H|H]; [lia|]. f_equal. unfold z1. rewrite <- !app_assoc. do 2 f_equal. rewrite !app_assoc. f_equal. rewrite <- repeat_app. f_equal. lia.
    + rewrite app_length, repeat_length, toBytes_length. reflexivity.
    + apply Forall_app. split; [apply RB|apply toBytes_bytes].
  - rewrite TN1, (app_assoc tail [128]). rewrite blit_app, repeat_length. set (a8 := Z.to_nat (64 - (zlen tail + 1) - 8)). set (left8 := skipn a8 (skipn 1 rest)).
    assert (L8 : List.length left8 = 8%nat) by (unfold left8, a8; rewrite !skipn_length; rewrite zlen_length in *; lia).
    assert (EL : 56%nat = List.length ((tail ++ [128]) ++ repeat 0 a8)) by (unfold a8; rewrite !app_length, repeat_length; rewrite zlen_length in *; cbn [List.length]; lia).
    rewrite LB. replace ((tail ++ [128]) ++ repeat 0 a8 ++ left8) with (((tail ++ [128]) ++ repeat 0 a8) ++ left8) by (rewrite <- !app_assoc; reflexivity). rewrite EL, blit_app, toBytes_length, (skipn_all2 left8) by lia. rewrite app_nil_r.
    apply (DONE 0%nat (c_regs ctx) []); [|reflexivity| | |reflexivity|exact HW].
    + rewrite PD, MT. destruct (Z.ltb_spec (zlen tail) 56) as [H|H]; [|lia]. unfold a8. replace (64 - (zlen tail + 1) - 8) with (55 - zlen tail) by lia. rewrite <- !app_assoc. reflexivity.
    + rewrite app_length, toBytes_length, <- EL. reflexivity.
    + apply Forall_app. split; [|apply toBytes_bytes]. apply Forall_app. split; [apply Forall_app; split; [exact HBt|constructor; [exact B128|constructor]]|apply RB].
Qed.
