(** C75: the keys of the cache are the MD5 digests (RFC 1321) of the environments, folded to 64 bits. *)
From Coq Require Import String Ascii.
From Verif Require Import PBase SModel SGeo SEvent SBuild SPlain SStep SBucket SPossible SRates SCache MCallback PLattice PProcess PRateTable PMatcher PPerform PStep PGeo PPossible PRun PEffect PRematch PEvent PBuild PPlain PRow PStepInv PBucket PRegular PRates PEnv PCache PCache2 TMatch TStep TPossible TRates XCheck XSystems XRows TCache MHash SHash PHash.
Open Scope string_scope.
Open Scope list_scope.
Open Scope Z_scope.

(** ** The digest *)
(** Bytes given to the digest in any portions: the result is the MD5 digest of all of them in one. *)
Theorem C75_digest chunks : Forall (Forall isByte) chunks -> MD5_Final (fold_left MD5_Update chunks MD5_Init) = md5 (concat chunks).
Proof.
  intros H. apply final_ok. assert (G : forall m ctx, PHash.holds m ctx -> PHash.holds (m ++ concat chunks) (fold_left MD5_Update chunks ctx)).
  { induction H as [|c l Hc H IH]; intros m ctx HH; cbn [concat fold_left]; [rewrite app_nil_r; exact HH|]. rewrite app_assoc. apply IH. apply update_holds; assumption. }
  apply (G [] MD5_Init). apply init_holds.
Qed.
Lemma ints_bytes l : flat_map intBytes l = integersBytes l /\ Forall isByte (integersBytes l).
Proof.
  induction l as [|i l [IH1 IH2]]; [split; [reflexivity|constructor]|]. unfold integersBytes in *. cbn [flat_map]. split.
  - rewrite IH1. f_equal. unfold intBytes. rewrite wordBytes_to, u32_mod. reflexivity.
  - apply Forall_app. split; [apply toBytes_bytes|exact IH2].
Qed.
Lemma core_ok m : Forall isByte m -> md5Core m = (ofBytes (firstn 8 (md5 m)), ofBytes (skipn 8 (md5 m))).
Proof. intros H. unfold md5Core. rewrite !fromBytes_of. pose proof (C75_digest [m]) as D. cbn [fold_left concat] in D. rewrite app_nil_r in D. rewrite D; [reflexivity|]. constructor; [exact H|constructor]. Qed.
Lemma ofBytes_bound l : Forall isByte l -> 0 <= ofBytes l < 256 ^ zlen l.
Proof.
  induction 1 as [|b l Hb H IH]; [unfold zlen; cbn; lia|]. cbn [ofBytes]. rewrite zlen_cons, Z.pow_add_r by (try apply zlen_nonneg; lia). unfold isByte in Hb. change (256 ^ 1) with 256. lia.
Qed.
Lemma md5_bytes m : List.length (md5 m) = 16%nat /\ Forall isByte (md5 m).
Proof.
  unfold md5. destruct (fold_left digestBlock _ _) as [[[a b] c] d]. split; [rewrite !app_length, !toBytes_length; reflexivity|]. repeat (apply Forall_app; split); apply toBytes_bytes.
Qed.
Lemma half_bound l : List.length l = 8%nat -> Forall isByte l -> 0 <= ofBytes l < 2 ^ 64.
Proof. intros HL HB. pose proof (ofBytes_bound l HB) as H. rewrite zlen_length, HL in H. exact H. Qed.
Lemma lxor_bound a b n : 0 <= n -> 0 <= a < 2 ^ n -> 0 <= b < 2 ^ n -> 0 <= Z.lxor a b < 2 ^ n.
Proof.
  intros Hn Ha Hb. assert (H0 : 0 <= Z.lxor a b) by (apply Z.lxor_nonneg; lia). split; [exact H0|]. destruct (Z.eq_dec (Z.lxor a b) 0) as [->|Hne]; [apply Z.pow_pos_nonneg; lia|].
  apply Z.log2_lt_pow2; [lia|]. pose proof (Z.log2_lxor a b ltac:(lia) ltac:(lia)) as HL. assert (La : a = 0 \/ Z.log2 a < n) by (destruct (Z.eq_dec a 0); [left; assumption|right; apply Z.log2_lt_pow2; lia]).
  assert (Lb : b = 0 \/ Z.log2 b < n) by (destruct (Z.eq_dec b 0); [left; assumption|right; apply Z.log2_lt_pow2; lia]).
  assert (0 < n). { destruct (Z.eq_dec n 0) as [->|]; [|lia]. assert (a = 0) by lia. assert (b = 0) by lia. subst. exfalso. apply Hne. reflexivity. }
  destruct La as [->|La], Lb as [->|Lb]; cbn [Z.log2] in *; lia.
Qed.
(** The key of a sequence of integers is the exclusive or of the two halves of the MD5 digest of their bytes; a number of 64 bits. *)
Theorem C75_key l : hash64MD5xor l = keyOf l /\ 0 <= hash64MD5xor l < 2 ^ 64.
Proof.
  destruct (ints_bytes l) as [E HB]. assert (K : hash64MD5xor l = keyOf l) by (unfold hash64MD5xor, keyOf; rewrite E, core_ok by exact HB; reflexivity). split; [exact K|]. rewrite K. unfold keyOf. destruct (md5_bytes (integersBytes l)) as [HL HM]. apply lxor_bound; [lia| |].
  - apply half_bound; [rewrite firstn_length; lia|apply Forall_firstn; exact HM].
  - apply half_bound; [rewrite skipn_length; lia|apply Forall_skipn; exact HM].
Qed.
(** The same for text. *)
Lemma string_bytes s : Forall isByte (stringBytes s).
Proof. unfold stringBytes. apply Forall_forall. intros b Hb. apply in_map_iff in Hb. destruct Hb as (c & <- & _). unfold isByte. pose proof (nat_ascii_bounded c). lia. Qed.
Theorem C75_text s : hashMD5 s = (ofBytes (firstn 8 (md5 (stringBytes s))), ofBytes (skipn 8 (md5 (stringBytes s)))) /\
  hash64MD5xorString s = Z.lxor (ofBytes (firstn 8 (md5 (stringBytes s)))) (ofBytes (skipn 8 (md5 (stringBytes s)))).
Proof. unfold hash64MD5xorString, hashMD5. rewrite core_ok by apply string_bytes. split; reflexivity. Qed.

(** ** The digest as text *)
Definition hexValue (c : ascii) : Z := let n := Z.of_nat (nat_of_ascii c) in if n <? 58 then n - 48 else n - 87.
(** the number that digits stand for, most significant digit first *)
Fixpoint readHex (acc : Z) (s : string) : Z := match s with EmptyString => acc | String c s' => readHex (16 * acc + hexValue c) s' end.
Lemma hexValue_digit d : 0 <= d < 16 -> hexValue (hexDigit d) = d.
Proof. intros H. assert (X : forallb (fun d => hexValue (hexDigit d) =? d) (zrange 0 15) = true) by (vm_compute; reflexivity). rewrite forallb_forall in X. apply Z.eqb_eq. apply X. apply In_zrange. lia. Qed.
Lemma hexDigits_read fuel : forall x acc, 0 <= x < 16 ^ Z.of_nat fuel -> (0 < fuel)%nat -> readHex 0 (hexDigits fuel x acc) = readHex x acc.
Proof.
  induction fuel as [|fuel IH]; intros x acc Hx Hf; [lia|]. cbn [hexDigits]. destruct (Z.ltb_spec x 16) as [H|H].
  - cbn [readHex]. rewrite Z.mod_small by lia. rewrite hexValue_digit by lia. f_equal. 
  - rewrite Nat2Z.inj_succ, Z.pow_succ_r in Hx by lia. rewrite IH; [| |destruct fuel; [cbn in Hx; lia|lia]].
    + cbn [readHex]. rewrite hexValue_digit by (apply Z.mod_pos_bound; lia). f_equal. pose proof (Z.div_mod x 16). lia.
    + split; [apply Z.div_pos; lia|apply Z.div_lt_upper_bound; lia].
Qed.
(** Each half alone can be read back. *)
Theorem C75_half_text x : 0 <= x < 2 ^ 64 -> readHex 0 (formatHex x) = x.
Proof. intros H. unfold formatHex. rewrite hexDigits_read; [reflexivity|exact H|lia]. Qed.
(** The two halves in one are not: leading zeros are left out, so the text of the digest does not always have 32 digits, and different digests have the same text. *)
Theorem C75_digest_text_refuted : (exists s, String.length (hashMD5Text s) <> 32%nat) /\
  exists a b a' b', (0 <= a < 2 ^ 64 /\ 0 <= b < 2 ^ 64 /\ 0 <= a' < 2 ^ 64 /\ 0 <= b' < 2 ^ 64) /\ (a, b) <> (a', b') /\ (formatHex a ++ formatHex b)%string = (formatHex a' ++ formatHex b')%string.
Proof.
  split; [exists ""; vm_compute; discriminate|]. exists 1, 0x2ffffffffffffff, 0x12, 0xffffffffffffff. split; [lia|]. split; [intros H; injection H; lia|vm_compute; reflexivity].
Qed.

(** ** No key is perfect *)
Lemma find_collision (f : Z -> Z) l : NoDup l -> ~ NoDup (map f l) -> exists x y, In x l /\ In y l /\ x <> y /\ f x = f y.
Proof.
  induction 1 as [|a l Ha ND IH]; intros H; [exfalso; apply H; constructor|]. cbn [map] in H. destruct (in_dec Z.eq_dec (f a) (map f l)) as [Hin|Hn].
  - apply in_map_iff in Hin. destruct Hin as (y & E & Hy). exists a, y. split; [left; reflexivity|]. split; [right; exact Hy|]. split; [intros ->; contradiction|symmetry; exact E].
  - destruct IH as (x & y & Hx & Hy & H1 & H2); [intros ND'; apply H; constructor; assumption|]. exists x, y. split; [right; exact Hx|]. split; [right; exact Hy|]. auto.
Qed.
Lemma pigeons (f : Z -> Z) N : 0 <= N -> (forall x, 0 <= x <= N -> 0 <= f x < N) -> exists x y, 0 <= x <= N /\ 0 <= y <= N /\ x <> y /\ f x = f y.
Proof.
  intros HN H. destruct (find_collision f (zrange 0 N) (NoDup_zrange _ _)) as (x & y & Hx & Hy & H1 & H2).
  - intros ND. assert (I : incl (map f (zrange 0 N)) (zrange 0 (N - 1))). { intros z Hz. apply in_map_iff in Hz. destruct Hz as (x & <- & Hx). apply In_zrange in Hx. apply In_zrange. specialize (H x). lia. }
    pose proof (NoDup_incl_length ND I) as HL. rewrite map_length in HL. assert (L1 : zlen (zrange 0 N) = N + 1) by (rewrite zlen_zrange; lia). assert (L2 : zlen (zrange 0 (N - 1)) = N) by (rewrite zlen_zrange; lia). unfold zlen in L1, L2. lia.
  - apply In_zrange in Hx, Hy. exists x, y. auto.
Qed.
(** Whatever the function to 64-bit numbers: two different sequences of three numbers of particles have the same key.  So no such key is different for all environments. *)
Theorem C75_no_perfect_key (hash : list Z -> Z) : (forall l, 0 <= hash l < 2 ^ 64) ->
  exists a b, List.length a = 3%nat /\ List.length b = 3%nat /\ Forall (fun i => 0 <= i < 2 ^ 31) a /\ Forall (fun i => 0 <= i < 2 ^ 31) b /\ a <> b /\ hash a = hash b.
Proof.
  intros H. set (enc := fun x => [x mod 2 ^ 31; (x / 2 ^ 31) mod 2 ^ 31; x / 2 ^ 62]). destruct (pigeons (fun x => hash (enc x)) (2 ^ 64)) as (x & y & Hx & Hy & HN & HE); [lia|intros; apply H|].
  assert (R : forall z, 0 <= z <= 2 ^ 64 -> Forall (fun i => 0 <= i < 2 ^ 31) (enc z)).
  { intros z Hz. unfold enc. repeat constructor; try (apply Z.mod_pos_bound; lia); try (apply Z.div_pos; lia). assert (z / 2 ^ 62 < 5) by (apply Z.div_lt_upper_bound; lia). lia. }
  exists (enc x), (enc y). split; [reflexivity|]. split; [reflexivity|]. split; [apply R; exact Hx|]. split; [apply R; exact Hy|]. split; [|exact HE]. intros E. apply HN.
  assert (F : forall z, z = 2 ^ 62 * (z / 2 ^ 62) + (2 ^ 31 * ((z / 2 ^ 31) mod 2 ^ 31) + z mod 2 ^ 31)).
  { intros z. change (2 ^ 62) with (2 ^ 31 * 2 ^ 31). rewrite <- Z.div_div by lia. pose proof (Z.div_mod z (2 ^ 31) ltac:(lia)). pose proof (Z.div_mod (z / 2 ^ 31) (2 ^ 31) ltac:(lia)). lia. }
  rewrite (F x), (F y). assert (T : forall a b c a' b' c' : Z, [a; b; c] = [a'; b'; c'] -> a = a' /\ b = b' /\ c = c') by (intros; injection H0; auto). apply T in E. destruct E as (E1 & E2 & E3). rewrite E1, E2, E3. reflexivity.
Qed.
Theorem C75_cache_key_refuted : ~ distinctKeys (fun _ => True) hash64MD5xor.
Proof. intros H. destruct (C75_no_perfect_key hash64MD5xor) as (a & b & _ & _ & _ & _ & HN & HE); [intros l; apply (C75_key l)|]. apply HN. apply H; auto. Qed.

(** ** Examples *)
(** the test suite in section A.5 of RFC 1321 *)
Definition hexBytes (l : list Z) : string := fold_right (fun b s => String (hexDigit (b / 16)) (String (hexDigit (b mod 16)) s)) EmptyString l.
Definition md5Text (s : string) : string := hexBytes (md5 (stringBytes s)).
Example C75_rfc_suite : map md5Text [""; "a"; "abc"; "message digest"; "abcdefghijklmnopqrstuvwxyz"; "ABCDEFGHIJKLMNOPQRSTUVWXYZabcdefghijklmnopqrstuvwxyz0123456789";
    "12345678901234567890123456789012345678901234567890123456789012345678901234567890"] =
  ["d41d8cd98f00b204e9800998ecf8427e"; "0cc175b9c0f1b6a831c399e269772661"; "900150983cd24fb0d6963f7d28e17f72"; "f96b697d7cb7938d525a2f31aaf161d0"; "c3fcd3d76192e4007dfb496cca67e13b";
   "d174ab98d277d9f5a5611c2c9f419d9f"; "57edf4a22be3c955ac49da2e2107b67a"].
Proof. vm_compute. reflexivity. Qed.
(** in portions, one of which fills the buffer of 64 bytes and runs over *)
Example C75_portions : Forall (Forall isByte) [stringBytes "1234567890"; repeat 65 100; []; stringBytes "xyz"] /\ 64 < zlen (repeat 65 100 : list Z).
Proof. split; [|vm_compute; reflexivity]. repeat constructor; try apply string_bytes; unfold isByte; lia. Qed.
(** the values in the tests of the program (test_hash.cpp) *)
Example C75_program_tests : hashMD5Text "" = "4b2008fd98c1dd47e42f8ec980980e9" /\ map hash64MD5xor [[917;0;0;1;0;0;0;0;0;1;0;0;0;0;0]; [917;0;1;0;0;0;0;0;0;0;1;0;0;0;0]; [916;0;0;1;0;0;0;0;0;1;0;0;0;0;0]] =
  [18009609292013583759; 4224368175550234772; 4824710481459367137].
Proof. vm_compute. split; reflexivity. Qed.

(** The keys of a simulation can be told apart by looking at it: the environments that come up, one by one. *)
Definition environmentsAt (md : model) : list (list Z) :=
  flat_map (fun i => match zget (in_procs (md_in md)) i with
    | Some p => flat_map (fun x => match hashData (md_cf md) p x with Some d => [d] | None => [] end) (zrange 0 (nsites (md_lat md) - 1))
    | None => [] end) (zrange 0 (zlen (in_procs (md_in md)) - 1)).
Lemma environmentsAt_all md d : environmentIn md d -> In d (environmentsAt md).
Proof.
  intros (i & p & x & Ep & Hx & _ & Ed). unfold environmentsAt. apply in_flat_map. exists i. split; [apply In_zrange; apply zget_range in Ep; lia|]. rewrite Ep. apply in_flat_map. exists x. split; [apply In_zrange; lia|]. rewrite Ed. left. reflexivity.
Qed.
Definition prefixes {A} (l : list A) : list (list A) := map (fun k => firstn k l) (seq 0 (S (List.length l))).
Lemma prefixes_all {A} (b c : list A) : In b (prefixes (b ++ c)).
Proof.
  unfold prefixes. apply in_map_iff. exists (List.length b). split; [rewrite firstn_app, Nat.sub_diag, firstn_all, firstn_O; apply app_nil_r|]. apply in_seq. rewrite app_length. lia.
Qed.
Definition environmentsOf ranks hash L cf it us : list (list Z) := flat_map (fun b => match simulate ranks hash L cf it b with Some md => environmentsAt md | None => [] end) (prefixes us).
Lemma environmentsOf_all ranks hash L cf it us d : comesUp ranks hash L cf it us d -> In d (environmentsOf ranks hash L cf it us).
Proof. intros (b & c & md & -> & E & H). unfold environmentsOf. apply in_flat_map. exists b. split; [apply prefixes_all|]. rewrite E. apply environmentsAt_all. exact H. Qed.
Definition separated (hash : list Z -> Z) (ds : list (list Z)) : bool :=
  let ks := map (fun d => (hash d, d)) (nodup (list_eq_dec Z.eq_dec) ds) in forallb (fun kd => forallb (fun kd' => negb (fst kd =? fst kd') || list_eqb (snd kd) (snd kd')) ks) ks.
Lemma separated_sound hash ds : separated hash ds = true -> distinctKeys (fun d => In d ds) hash.
Proof.
  intros H a b Ha Hb E. unfold separated in H. rewrite forallb_forall in H. rewrite <- (nodup_In (list_eq_dec Z.eq_dec)) in Ha, Hb. specialize (H (hash a, a)). rewrite forallb_forall in H.
  assert (X := H ltac:(apply in_map_iff; exists a; auto) (hash b, b) ltac:(apply in_map_iff; exists b; auto)). cbn [fst snd] in X. rewrite E, Z.eqb_refl in X. cbn in X. apply PEnv.list_eqb_eq. exact X.
Qed.
(** With the key of the program: a cached simulation which satisfies the hypotheses of C30_cache_transparent, in both directions. *)
Definition xkCheck els specs := userCheck 2 hash64MD5xor x1L x1sites els x1pt specs true true (pyCalculator rateS2 rateB2) x30us (dev 1 100) (dev 1 2).
Strategy expand [xkCheck].
Definition xkb (cf : config) (it : interactions) (md : model) : bool :=
  numberedb it && (singlesb cf || bucketsb it) && storedSome md && separated hash64MD5xor (environmentsOf 2 hash64MD5xor x1L cf it x30us) && separated hash64MD5xor (environmentsOf 2 hash64MD5xor x1L cf (uncached it) x30us) &&
  (2 <? zlen (nodup (list_eq_dec Z.eq_dec) (environmentsOf 2 hash64MD5xor x1L cf it x30us))).
Definition keyCase (xs : list xspec) : Prop :=
  exists cf it md, userInput 2 x1L cf it (specOf xs) /\ cacheInput (comesUp 2 hash64MD5xor x1L cf it x30us) hash64MD5xor cf it /\ cacheInput (comesUp 2 hash64MD5xor x1L cf (uncached it) x30us) hash64MD5xor cf it /\
    simulate 2 hash64MD5xor x1L cf it x30us = Some md /\ rt_tabs (mt_rt (md_mt md)) <> [].
Lemma key_example els xs : xkCheck els xs (fun cf it md _ => xkb cf it md) = true -> keyCase xs.
Proof.
  intros H. unfold xkCheck in H. apply userCheck_sound in H. destruct H as (cf & it & md & md' & US & H). unfold xkb in H. rewrite !andb_true_iff in H. destruct H as (((((H1 & H2) & H3) & H4) & H5) & _).
  destruct (us_it _ _ _ _ _ _ _ _ _ _ _ _ _ _ _ _ _ US) as (ps & _ & Eit). assert (UI : userInput 2 x1L cf it (specOf xs)) by inputOf US.
  assert (CI : forall D, distinctKeys D hash64MD5xor -> cacheInput D hash64MD5xor cf it).
  { intros D HD. constructor; [exact HD|apply numberedb_sound; exact H1| |].
    - intros q _ _. rewrite Eit. split; intros; reflexivity.
    - apply orb_true_iff in H2. destruct H2 as [H2|H2]; [left; apply singlesb_sound; exact H2|right; apply bucketsb_sound; exact H2]. }
  exists cf, it, md. split; [exact UI|]. split; [apply CI; intros a b Ha Hb; apply (separated_sound _ _ H4); apply environmentsOf_all; assumption|].
  split; [apply CI; intros a b Ha Hb; apply (separated_sound _ _ H5); apply environmentsOf_all; assumption|].
  split; [destruct US as [_ _ (md0 & E0 & E1) _ _]; unfold simulate; rewrite E0; exact E1|]. intros HE. unfold storedSome in H3. rewrite HE in H3. discriminate.
Qed.
Example C75_example_plain : keyCase xgSpecs.
Proof. apply (key_example (one xaTypes)). vm_compute. reflexivity. Qed.
Example C75_example_bucket : keyCase xhSpecs.
Proof. apply (key_example xfEls). vm_compute. reflexivity. Qed.

Print Assumptions C75_digest. Print Assumptions C75_key. Print Assumptions C75_text. Print Assumptions C75_half_text. Print Assumptions C75_digest_text_refuted.
Print Assumptions C75_no_perfect_key. Print Assumptions C75_cache_key_refuted.
