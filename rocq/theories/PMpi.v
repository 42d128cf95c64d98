(** Proofs about MMpi.v: chunks partition the tasks, split and join are inverse. *)
From Verif Require Import PBase MMpi.
Open Scope Z_scope.
Open Scope list_scope.

Lemma skipn_S_tl {A} (n : nat) (l : list A) : skipn (S n) l = tl (skipn n l).
Proof.
  revert l; induction n as [|n IH]; intros [|a l]; try reflexivity. cbn [skipn]. rewrite <- IH. reflexivity.
Qed.

Section Chunks.
Context (take rest : Z).
(** start of chunk i *)
Definition cstart (i : Z) : Z := i * take + Z.min i rest.
Definition csize (i : Z) : Z := if i <? rest then take + 1 else take.

Lemma chunks_loop_get n i sum k : 0 <= i -> 0 <= k < Z.of_nat n -> sum = cstart i ->
  zget (chunks_loop n i sum take rest) k = Some (cstart (i + k), csize (i + k)).
Proof.
  revert i sum k; induction n as [|n IH]; intros i sum k Hi Hk Hs; [lia|].
  cbn [chunks_loop]. rewrite zget_cons. destruct (Z.eqb_spec k 0).
  - subst k sum. rewrite Z.add_0_r. reflexivity.
  - rewrite (IH (i + 1)); try lia.
    + do 2 f_equal; f_equal; lia.
    + subst sum. unfold cstart. destruct (Z.ltb_spec i rest); lia.
Qed.
Lemma chunks_loop_length n i sum : length (chunks_loop n i sum take rest) = n.
Proof. revert i sum; induction n; intros; simpl; [reflexivity|rewrite IHn; reflexivity]. Qed.
End Chunks.

Definition qstart (size len i : Z) := cstart (len / size) (len mod size) i.
Definition qsize (size len i : Z) := csize (len / size) (len mod size) i.

Lemma determineChunks_get size len k : 1 <= size -> 0 <= len -> 0 <= k < size ->
  zget (determineChunks size len) k = Some (qstart size len k, qsize size len k).
Proof.
  intros Hs Hl Hk. unfold determineChunks.
  rewrite Z.quot_div_nonneg, Z.rem_mod_nonneg by lia.
  rewrite chunks_loop_get; try lia; [reflexivity|].
  unfold cstart. pose proof (Z.mod_pos_bound len size). lia.
Qed.
Lemma determineChunks_length size len : length (determineChunks size len) = Z.to_nat size.
Proof. apply chunks_loop_length. Qed.

Section Q.
Context (size len : Z) (Hs : 1 <= size) (Hl : 0 <= len).
Lemma qstart_0 : qstart size len 0 = 0.
Proof using Hs Hl. unfold qstart, cstart. pose proof (Z.mod_pos_bound len size). lia. Qed.
Lemma qstart_S k : 0 <= k -> qstart size len (k + 1) = qstart size len k + qsize size len k.
Proof using Hs Hl.
  intros. unfold qstart, qsize, cstart, csize. destruct (Z.ltb_spec k (len mod size)); lia.
Qed.
Lemma qstart_end : qstart size len size = len.
Proof using Hs Hl.
  unfold qstart, cstart. pose proof (Z.mod_pos_bound len size). pose proof (Z.div_mod len size). lia.
Qed.
Lemma qsize_range k : len / size <= qsize size len k <= len / size + 1.
Proof using Hs Hl. unfold qsize, csize. destruct (k <? len mod size); lia. Qed.
Lemma qsize_nonneg k : 0 <= qsize size len k.
Proof using Hs Hl. pose proof (qsize_range k). assert (0 <= len / size) by (apply Z.div_pos; lia). lia. Qed.
Lemma qstart_mono k k' : 0 <= k <= k' -> qstart size len k <= qstart size len k'.
Proof using Hs Hl.
  intros H. unfold qstart, cstart. assert (0 <= len / size) by (apply Z.div_pos; lia). nia.
Qed.
(** every task belongs to exactly one chunk *)
Lemma qchunk_of i : 0 <= i < len -> exists k, 0 <= k < size /\ qstart size len k <= i < qstart size len (k + 1).
Proof using Hs Hl.
  intros Hi.
  assert (forall n, 0 <= n -> n <= size -> i < qstart size len n ->
            exists k, 0 <= k < n /\ qstart size len k <= i < qstart size len (k + 1)) as HH.
  { intros n Hn. pattern n. apply natlike_ind; [| |exact Hn].
    - intros _ H. rewrite qstart_0 in H. lia.
    - intros m Hm IH Hms H. destruct (Z_lt_dec i (qstart size len m)).
      + destruct IH as (k & Hk & Hk'); try lia. exists k. split; [lia|exact Hk'].
      + exists m. unfold Z.succ in *. lia. }
  apply HH; try lia. rewrite qstart_end. lia.
Qed.
End Q.

(** ** split *)
Lemma split_spec {A} size rank (g : list A) : 1 <= size -> 0 <= rank < size ->
  splitOverProcesses size rank g =
  Some (firstn (Z.to_nat (qsize size (zlen g) rank)) (skipn (Z.to_nat (qstart size (zlen g) rank)) g)).
Proof.
  intros Hs Hr. unfold splitOverProcesses. rewrite determineChunks_get by auto. simpl obind.
  pose proof (zlen_nonneg g) as Hg.
  pose proof (qsize_nonneg size (zlen g) Hs Hg rank) as Hq.
  assert (Hst : 0 <= qstart size (zlen g) rank).
  { rewrite <- (qstart_0 size (zlen g)) by auto. apply qstart_mono; lia. }
  assert (Hend : qstart size (zlen g) rank + qsize size (zlen g) rank <= zlen g).
  { rewrite <- qstart_S by lia. rewrite <- (qstart_end size (zlen g)) at 2 by auto. apply qstart_mono; lia. }
  simpl fst. simpl snd.
  set (st := qstart size (zlen g) rank) in *. set (sz := qsize size (zlen g) rank) in *. clearbody st sz.
  apply omap_Forall2.
  replace (zrange 0 (sz - 1)) with (zseq 0 (Z.to_nat sz)) by (unfold zrange; f_equal; lia).
  assert (Hsz : (Z.to_nat sz <= length (skipn (Z.to_nat st) g))%nat).
  { rewrite skipn_length. unfold zlen in *. lia. }
  assert (HH : forall n lo, 0 <= lo -> (n <= length (skipn (Z.to_nat (st + lo)) g))%nat ->
     Forall2 (fun a b => zget g (st + a) = Some b) (zseq lo n) (firstn n (skipn (Z.to_nat (st + lo)) g))).
  { induction n as [|n IH]; intros lo Hlo Hn; [constructor|].
    destruct (skipn (Z.to_nat (st + lo)) g) as [|a r] eqn:E; [simpl in Hn; lia|].
    simpl zseq. simpl firstn.
    assert (Er : r = skipn (Z.to_nat (st + (lo + 1))) g).
    { replace (Z.to_nat (st + (lo + 1))) with (S (Z.to_nat (st + lo))) by lia.
      rewrite skipn_S_tl, E. reflexivity. }
    constructor.
    - rewrite zget_nth by lia. rewrite <- (firstn_skipn (Z.to_nat (st + lo)) g) at 1. rewrite E.
      rewrite nth_error_app2; rewrite firstn_length.
      + replace (Z.to_nat (st + lo) - Nat.min (Z.to_nat (st + lo)) (length g))%nat with 0%nat; [reflexivity|].
        assert (length (skipn (Z.to_nat (st + lo)) g) = S (length r)) by (rewrite E; reflexivity).
        rewrite skipn_length in H. lia.
      + lia.
    - rewrite Er. apply IH; [lia|]. rewrite <- Er. simpl in Hn. lia. }
  specialize (HH (Z.to_nat sz) 0). rewrite Z.add_0_r in HH. apply HH; lia.
Qed.

(** ** join *)
Lemma placeLocal_spec size rank local glen : 1 <= size -> 0 <= rank < size -> 0 <= glen ->
  zlen local = qsize size glen rank ->
  exists g, placeLocal size rank glen local = Some g /\ zlen g = glen /\
    forall i, 0 <= i < glen ->
      zget g i = if (qstart size glen rank <=? i) && (i <? qstart size glen rank + qsize size glen rank)
                 then zget local (i - qstart size glen rank) else Some 0.
Proof.
  intros Hs Hr Hg Hloc. unfold placeLocal. rewrite determineChunks_get by auto. cbn [obind fst snd].
  pose proof (qsize_nonneg size glen Hs Hg rank) as Hq.
  assert (Hst : 0 <= qstart size glen rank).
  { rewrite <- (qstart_0 size glen) by auto. apply qstart_mono; lia. }
  assert (Hend : qstart size glen rank + qsize size glen rank <= glen).
  { rewrite <- qstart_S by lia. rewrite <- (qstart_end size glen) at 2 by auto. apply qstart_mono; lia. }
  set (st := qstart size glen rank) in *. set (sz := qsize size glen rank) in *. clearbody st sz.
  replace (zrange 0 (sz - 1)) with (zseq 0 (Z.to_nat sz)) by (unfold zrange; f_equal; lia).
  assert (HH : forall n lo g, 0 <= lo -> lo + Z.of_nat n <= sz -> zlen g = glen ->
     exists g', ofold (fun g i => v <- zget local i ;; zset g (st + i) v) (zseq lo n) g = Some g' /\
       zlen g' = glen /\
       forall i, 0 <= i < glen -> zget g' i = if (st + lo <=? i) && (i <? st + lo + Z.of_nat n)
                 then zget local (i - st) else zget g i).
  { induction n as [|n IH]; intros lo g Hlo Hn Hlg.
    - exists g. split; [reflexivity|]. split; [exact Hlg|]. intros i Hi.
      destruct (Z.leb_spec (st + lo) i), (Z.ltb_spec i (st + lo + Z.of_nat 0)); simpl; try lia; reflexivity.
    - cbn [zseq ofold]. destruct (zget_lt local lo) as [v Ev]; [lia|]. rewrite Ev. cbn [obind].
      destruct (zset_lt g (st + lo) v) as [g1 E1]; [lia|]. rewrite E1. cbn [obind].
      destruct (IH (lo + 1) g1) as (g' & E' & Hl' & Hget); try lia.
      { rewrite (zset_len _ _ _ _ E1). exact Hlg. }
      exists g'. split; [exact E'|]. split; [exact Hl'|]. intros i Hi. rewrite (Hget i Hi).
      rewrite (zset_get _ _ _ _ i E1).
      destruct (Z.leb_spec (st + (lo + 1)) i), (Z.ltb_spec i (st + (lo + 1) + Z.of_nat n)),
               (Z.leb_spec (st + lo) i), (Z.ltb_spec i (st + lo + Z.of_nat (S n))), (Z.eqb_spec i (st + lo));
        simpl; try lia; try reflexivity.
      subst i. replace (st + lo - st) with lo by lia. symmetry; exact Ev. }
  destruct (HH (Z.to_nat sz) 0 (repeat 0 (Z.to_nat glen))) as (g & E & Hl & Hget); try lia.
  { rewrite zlen_repeat; lia. }
  exists g. split; [exact E|]. split; [exact Hl|]. intros i Hi. rewrite (Hget i Hi).
  rewrite Z.add_0_r. replace (Z.of_nat (Z.to_nat sz)) with sz by lia.
  rewrite zget_repeat by lia. reflexivity.
Qed.

Lemma vadd_get a b i : zlen a = zlen b ->
  zget (vadd a b) i = match zget a i, zget b i with Some x, Some y => Some (x + y) | _, _ => None end.
Proof.
  revert b i; induction a as [|x a IH]; intros [|y b] i H.
  - simpl. rewrite !zget_nil. reflexivity.
  - rewrite zlen_cons, zlen_nil in H. pose proof (zlen_nonneg b); lia.
  - rewrite zlen_cons, zlen_nil in H. pose proof (zlen_nonneg a); lia.
  - rewrite !zlen_cons in H. simpl vadd. rewrite !zget_cons. destruct (i =? 0); [reflexivity|].
    apply IH. lia.
Qed.
Lemma vadd_len a b : zlen a = zlen b -> zlen (vadd a b) = zlen a.
Proof.
  revert b; induction a as [|x a IH]; intros [|y b] H; simpl; try reflexivity.
  - rewrite zlen_cons, zlen_nil in H. pose proof (zlen_nonneg a); lia.
  - rewrite !zlen_cons in *. rewrite IH; lia.
Qed.

(** sum of the placed vectors: only the rank owning position i contributes *)
Lemma sum_placed glen (placed : list (list Z)) (i : Z) (w : list Z) :
  Forall (fun g => zlen g = glen) placed -> 0 <= i < glen ->
  Forall2 (fun g v => zget g i = Some v) placed w ->
  zlen (fold_right vadd (repeat 0 (Z.to_nat glen)) placed) = glen /\
  zget (fold_right vadd (repeat 0 (Z.to_nat glen)) placed) i = Some (zsum w).
Proof.
  intros HF Hi H2. revert HF. induction H2 as [|g v placed w Hg H2 IH]; intros HF; cbn [fold_right].
  - split; [rewrite zlen_repeat; lia|]. rewrite zget_repeat by lia. reflexivity.
  - inversion HF; subst. destruct IH as [Hl Hget]; [assumption|]. rewrite vadd_len by lia.
    split; [lia|]. rewrite vadd_get by lia. rewrite Hg, Hget. reflexivity.
Qed.

Lemma omap_combine_zrange {A B} (F : Z -> A -> option B) (l : list A) lo :
  omap (fun rl : Z * A => F (fst rl) (snd rl)) (combine (zseq lo (length l)) l) =
  omap (fun i => a <- zget l (i - lo) ;; F i a) (zseq lo (length l)).
Proof.
  assert (HH : forall (l' : list A) k, (forall j a, zget l' j = Some a -> zget l (k + j) = Some a) ->
     omap (fun rl : Z * A => F (fst rl) (snd rl)) (combine (zseq (lo + k) (length l')) l') =
     omap (fun i => a <- zget l (i - lo) ;; F i a) (zseq (lo + k) (length l'))).
  { induction l' as [|a l' IH]; intros k Hk; [reflexivity|].
    cbn [length zseq combine omap fst snd].
    replace (lo + k + 1) with (lo + (k + 1)) by lia. rewrite (IH (k + 1)).
    - replace (lo + k - lo) with (k + 0) by lia. rewrite (Hk 0 a eq_refl). reflexivity.
    - intros j b Hj. replace (k + 1 + j) with (k + (j + 1)) by lia. apply Hk.
      pose proof (zget_range _ _ _ Hj). rewrite zget_S by lia. exact Hj. }
  specialize (HH l 0). rewrite Z.add_0_r in HH. apply HH. intros j a Hj. exact Hj.
Qed.

Lemma zsum_qsize size len : 1 <= size -> 0 <= len ->
  zsum (map (qsize size len) (zrange 0 (size - 1))) = len.
Proof.
  intros Hs Hl.
  assert (HH : forall n, 0 <= n -> n <= size -> zsum (map (qsize size len) (zrange 0 (n - 1))) = qstart size len n).
  { intros n Hn. pattern n. apply natlike_ind; [| |exact Hn].
    - intros _. rewrite qstart_0 by auto. reflexivity.
    - intros m Hm IH Hms. unfold Z.succ in *. replace (m + 1 - 1) with m by lia.
      rewrite zrange_snoc by lia. rewrite map_app, zsum_app, IH by lia. rewrite qstart_S by lia.
      simpl map. unfold zsum at 1. simpl. lia. }
  rewrite HH by lia. apply qstart_end; auto.
Qed.

Lemma zsum_single (f : Z -> Z) lo n k : lo <= k < lo + Z.of_nat n ->
  (forall j, lo <= j < lo + Z.of_nat n -> j <> k -> f j = 0) -> zsum (map f (zseq lo n)) = f k.
Proof.
  revert lo; induction n as [|n IH]; intros lo Hk H; [lia|].
  cbn [zseq map]. rewrite zsum_cons. destruct (Z.eq_dec lo k).
  - subst. assert (zsum (map f (zseq (k + 1) n)) = 0) as ->; [|lia].
    clear IH. assert (forall m lo', k < lo' -> lo' + Z.of_nat m <= k + Z.of_nat (S n) -> zsum (map f (zseq lo' m)) = 0) as HH.
    { induction m as [|m IHm]; intros lo' H1 H2; [reflexivity|]. cbn [zseq map]. rewrite zsum_cons.
      rewrite H, IHm by lia. lia. }
    apply HH; lia.
  - rewrite H by lia. rewrite (IH (lo + 1)); [lia|lia|]. intros; apply H; lia.
Qed.

Theorem mpiMap_omap {A} size (f : A -> option Z) (g : list A) : 1 <= size -> mpiMap size f g = omap f g.
Proof.
  intros Hs. unfold mpiMap. set (len := zlen g). pose proof (zlen_nonneg g) as Hl. fold len in Hl.
  set (loc := fun rank => firstn (Z.to_nat (qsize size len rank)) (skipn (Z.to_nat (qstart size len rank)) g)).
  assert (Eloc : omap (fun rank => l <- splitOverProcesses size rank g ;; omap f l) (zrange 0 (size - 1)) =
                 omap (fun rank => omap f (loc rank)) (zrange 0 (size - 1))).
  { apply omap_ext. intros r Hr. apply In_zrange in Hr. rewrite split_spec by lia. reflexivity. }
  rewrite Eloc. clear Eloc.
  assert (Hcat : forall n, 0 <= n -> n <= size ->
     flat_map loc (zrange 0 (n - 1)) = firstn (Z.to_nat (qstart size len n)) g).
  { intros n Hn. pattern n. apply natlike_ind; [| |exact Hn].
    - intros _. rewrite qstart_0 by auto. reflexivity.
    - intros m Hm IH Hms. unfold Z.succ in *. replace (m + 1 - 1) with m by lia.
      rewrite zrange_snoc by lia. rewrite flat_map_app, IH by lia. simpl flat_map. rewrite app_nil_r.
      unfold loc. rewrite qstart_S by lia.
      pose proof (qsize_nonneg size len Hs Hl m).
      assert (0 <= qstart size len m) by (rewrite <- (qstart_0 size len) by auto; apply qstart_mono; lia).
      rewrite Z2Nat.inj_add by lia.
      generalize (Z.to_nat (qstart size len m)) (Z.to_nat (qsize size len m)). intros a b. clear.
      revert a; induction g as [|x g IH]; intros a; [rewrite skipn_nil, !firstn_nil; reflexivity|].
      destruct a; simpl; [reflexivity|]. f_equal. apply IH. }
  assert (Hall : flat_map loc (zrange 0 (size - 1)) = g).
  { rewrite Hcat by lia. rewrite qstart_end by auto. apply firstn_all2. unfold len, zlen. lia. }
  assert (Hflat : forall ranks, match omap (fun rank => omap f (loc rank)) ranks with
      | Some ls => omap f (flat_map loc ranks) = Some (concat ls)
      | None => omap f (flat_map loc ranks) = None end).
  { induction ranks as [|r ranks IH]; [reflexivity|]. cbn [omap flat_map]. rewrite omap_app.
    destruct (omap f (loc r)) as [b|]; cbn [obind]; [|reflexivity].
    destruct (omap (fun rank => omap f (loc rank)) ranks) as [ls|]; cbn [obind]; rewrite IH; reflexivity. }
  specialize (Hflat (zrange 0 (size - 1))). rewrite Hall in Hflat.
  destruct (omap (fun rank => omap f (loc rank)) (zrange 0 (size - 1))) as [locals|] eqn:EL; cbn [obind];
    [|symmetry; exact Hflat].
  rewrite Hflat. unfold joinOverProcesses.
  assert (Hlen : length locals = length (zrange 0 (size - 1))) by (apply omap_length in EL; exact EL).
  assert (Hlocal : forall r, 0 <= r < size -> exists l, zget locals r = Some l /\ omap f (loc r) = Some l /\ zlen l = qsize size len r).
  { intros r Hr. pose proof (omap_zget _ _ _ r EL) as E. rewrite zget_zrange in E by lia. cbn [obind] in E.
    rewrite Z.add_0_l in E. destruct (zget_lt locals r) as [l El].
    { unfold zlen. rewrite Hlen. change (Z.of_nat (length (zrange 0 (size - 1)))) with (zlen (zrange 0 (size - 1))).
      rewrite zlen_zrange. lia. }
    exists l. split; [exact El|]. rewrite El in E. split; [auto|].
    symmetry in E. rewrite (omap_zlen _ _ _ E).
    pose proof (qsize_nonneg size len Hs Hl r).
    assert (0 <= qstart size len r) by (rewrite <- (qstart_0 size len) by auto; apply qstart_mono; lia).
    assert (qstart size len r + qsize size len r <= len).
    { rewrite <- qstart_S by lia. rewrite <- (qstart_end size len) at 2 by auto. apply qstart_mono; lia. }
    unfold loc, zlen. rewrite firstn_length, skipn_length. unfold len, zlen in *. lia. }
  assert (Hsum : zsum (map zlen locals) = len).
  { rewrite <- (zsum_qsize size len) by auto. f_equal. apply zget_ext. intros i. rewrite !zget_map.
    destruct (Z_lt_dec i 0); [rewrite !zget_neg by lia; reflexivity|].
    destruct (Z_lt_dec i size).
    - destruct (Hlocal i) as (li & El & _ & Hz); [lia|]. rewrite El, zget_zrange by lia. simpl. f_equal. rewrite Hz. f_equal.
    - assert (zget locals i = None) as ->.
      { apply zget_None. right. unfold zlen. rewrite Hlen. change (Z.of_nat (length (zrange 0 (size - 1)))) with (zlen (zrange 0 (size - 1))). rewrite zlen_zrange. lia. }
      assert (zget (zrange 0 (size - 1)) i = None) as ->; [|reflexivity].
      apply zget_None. right. rewrite zlen_zrange. lia. }
  rewrite Hsum.
  assert (Hn : zrange 0 (size - 1) = zseq 0 (length locals)).
  { rewrite Hlen. unfold zrange. rewrite zseq_length. reflexivity. }
  rewrite Hn. rewrite (omap_combine_zrange (fun r l => placeLocal size r len l)).
  assert (Hls : Z.of_nat (length locals) = size).
  { rewrite Hlen. change (Z.of_nat (length (zrange 0 (size - 1)))) with (zlen (zrange 0 (size - 1))). rewrite zlen_zrange. lia. }
  destruct (omap_total (fun i => a <- zget locals (i - 0) ;; placeLocal size i len a) (zseq 0 (length locals))) as [placed EP].
  { intros i Hi. apply In_zseq in Hi. destruct (Hlocal i) as (l & El & _ & Hz); [lia|].
    rewrite Z.sub_0_r, El. cbn [obind]. destruct (placeLocal_spec size i l len) as (gg & E & _); auto; try lia. eauto. }
  rewrite EP. cbn [obind]. f_equal.
  assert (HPl : Forall (fun g0 => zlen g0 = len) placed).
  { apply Forall_forall. intros gg Hgg. destruct (omap_In _ _ _ _ EP Hgg) as (i & Hi & E).
    apply In_zseq in Hi. destruct (Hlocal i) as (l & El & _ & Hz); [lia|].
    rewrite Z.sub_0_r, El in E. cbn [obind] in E. destruct (placeLocal_spec size i l len) as (g2 & E2 & Hg2 & _); auto; try lia.
    congruence. }
  assert (Hclen : zlen (concat locals) = len) by (apply omap_zlen in Hflat; exact Hflat).
  assert (Hzl : zlen (fold_right vadd (repeat 0 (Z.to_nat len)) placed) = len).
  { clear - HPl Hl. induction HPl; cbn [fold_right]; [rewrite zlen_repeat; lia|]. rewrite vadd_len; lia. }
  apply zget_ext. intros i.
  destruct (Z_lt_dec i 0); [rewrite !zget_neg by lia; reflexivity|].
  destruct (Z_lt_dec i len).
  2: { assert (forall (l : list Z), zlen l = len -> zget l i = None) as HN by (intros; apply zget_None; lia).
       rewrite !HN by auto. reflexivity. }
  destruct (qchunk_of size len Hs Hl i) as (k & Hk & Hki); [lia|].
  destruct (Hlocal k Hk) as (lk & Elk & Efk & Hzk).
  set (w := fun r => if Z.eq_dec r k then match zget lk (i - qstart size len k) with Some v => v | None => 0 end else 0).
  assert (HW : Forall2 (fun g0 v => zget g0 i = Some v) placed (map w (zseq 0 (length locals)))).
  { apply omap_Forall2 in EP. clear - EP Hlocal Hki Hk Hs Hl Hls l n Elk Hzk.
    assert (Hin : forall r, In r (zseq 0 (length locals)) -> 0 <= r < size).
    { intros r Hr. apply In_zseq in Hr. lia. }
    revert Hin. induction EP as [|r g0 rs placed Er EP IH]; intros Hin; [constructor|].
    cbn [map]. constructor; [|apply IH; intros; apply Hin; right; auto].
    specialize (Hin r (or_introl eq_refl)).
    destruct (Hlocal r Hin) as (lr & Elr & _ & Hzr). rewrite Z.sub_0_r, Elr in Er. cbn [obind] in Er.
    destruct (placeLocal_spec size r lr len) as (g2 & E2 & _ & Hget); auto.
    assert (g0 = g2) by congruence. subst g2. rewrite (Hget i) by lia.
    unfold w. destruct (Z.eq_dec r k).
    - subst r. assert (lr = lk) by congruence. subst lr. rewrite <- qstart_S by lia.
      destruct (Z.leb_spec (qstart size len k) i); [|lia]. destruct (Z.ltb_spec i (qstart size len (k + 1))); [|lia].
      cbn [andb]. destruct (zget_lt lk (i - qstart size len k)) as [v Ev]; [|rewrite Ev; reflexivity].
      rewrite Hzk. pose proof (qstart_S size len Hs Hl k). lia.
    - rewrite <- qstart_S by lia.
      destruct (Z.leb_spec (qstart size len r) i), (Z.ltb_spec i (qstart size len (r + 1))); cbn [andb]; try reflexivity.
      exfalso. destruct (Z_lt_dec r k).
      + pose proof (qstart_mono size len Hs Hl (r + 1) k). lia.
      + pose proof (qstart_mono size len Hs Hl (k + 1) r). lia. }
  destruct (sum_placed len placed i _ HPl ltac:(lia) HW) as [_ ->].
  rewrite (zsum_single w 0 (length locals) k).
  2: lia.
  2: { intros j _ Hj. unfold w. destruct (Z.eq_dec j k); [contradiction|reflexivity]. }
  unfold w. destruct (Z.eq_dec k k); [|congruence].
  (* position i of the concatenation *)
  assert (Hpos : forall n, 0 <= n -> n <= size -> zlen (concat (firstn (Z.to_nat n) locals)) = qstart size len n).
  { intros m Hm. pattern m. apply natlike_ind; [| |exact Hm].
    - intros _. rewrite qstart_0 by auto. reflexivity.
    - intros p Hp IH Hps. unfold Z.succ in *. rewrite qstart_S by lia. rewrite <- IH by lia.
      destruct (Hlocal p) as (lp & Elp & _ & Hzp); [lia|]. rewrite <- Hzp.
      replace (firstn (Z.to_nat (p + 1)) locals) with (firstn (Z.to_nat p) locals ++ [lp]).
      + rewrite concat_app, zlen_app. simpl. rewrite app_nil_r. lia.
      + destruct (zget_split _ _ _ Elp) as (a & b & -> & Ha). subst p.
        replace (Z.to_nat (zlen a + 1)) with (length a + 1)%nat by (unfold zlen; lia). rewrite to_nat_zlen.
        rewrite firstn_app_2. simpl. rewrite firstn_app, Nat.sub_diag, firstn_all. simpl. rewrite app_nil_r. reflexivity. }
  destruct (zget_split _ _ _ Elk) as (a & b & Eab & Ha).
  assert (Hca : zlen (concat a) = qstart size len k).
  { rewrite <- (Hpos k) by lia. rewrite Eab. rewrite <- Ha, to_nat_zlen. rewrite firstn_app, Nat.sub_diag, firstn_all.
    simpl. rewrite app_nil_r. reflexivity. }
  rewrite Eab. rewrite concat_app. cbn [concat]. rewrite zget_app_r by lia. rewrite Hca.
  assert (i - qstart size len k < zlen lk) by (rewrite Hzk; pose proof (qstart_S size len Hs Hl k); lia).
  rewrite zget_app_l by assumption.
  destruct (zget_lt lk (i - qstart size len k)) as [v Ev]; [lia|]. rewrite Ev. reflexivity.
Qed.
