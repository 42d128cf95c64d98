(** Proofs about the blocker and the mean square displacement analysis. *)
From Verif Require Import PBase PGeo PStepInv PAnalysis MMsd SMsd SBlocker.
From Coq Require Import Lra ZifyBool.
Open Scope Z_scope.
Open Scope list_scope.

Lemma csum_snoc l c : csum (l ++ [c]) = cadd (csum l) c.
Proof. unfold csum. induction l as [|a l IH]; cbn [app fold_right]; [destruct c; unfold cadd; cbn; f_equal; lia|]. rewrite IH. unfold cadd. cbn. f_equal; lia. Qed.

Lemma registeredIn_app {A} b (l m : list (Z * A)) : registeredIn b (l ++ m) = registeredIn b l ++ registeredIn b m.
Proof. unfold registeredIn. now rewrite filter_app, map_app. Qed.
Lemma registeredIn_one {A} b b' (v : A) : registeredIn b [(b', v)] = if b' =? b then [v] else [].
Proof. unfold registeredIn. cbn [filter fst]. destruct (b' =? b); reflexivity. Qed.

(** ** The blocker *)
Definition binOK (size : Z) (vals : list coord) (since : Z) (cur : coord) (bs : list coord) : Prop :=
  exists blocks rest, cutIn size vals blocks rest /\ since = zlen rest /\ cur = csum rest /\ bs = map csum blocks.
Record blInv (nb size : Z) (calls : list (Z * coord)) (bl : blocker) : Prop := {
  bi_size : bl_size bl = size;
  bi_since : zlen (bl_since bl) = nb;
  bi_current : zlen (bl_current bl) = nb;
  bi_blocks : zlen (bl_blocks bl) = nb;
  bi_bins : forall b n c bs, zget (bl_since bl) b = Some n -> zget (bl_current bl) b = Some c -> zget (bl_blocks bl) b = Some bs -> binOK size (registeredIn b calls) n c bs }.

Lemma mkBlocker_inv nb size : 0 <= nb -> exists bl, mkBlocker nb size = Some bl /\ blInv nb size [] bl.
Proof.
  intros H. unfold mkBlocker. destruct (nb <? 0) eqn:E; [lia|]. eexists. split; [reflexivity|].
  split; cbn; rewrite ?zlen_repeat; try lia; try reflexivity.
  intros b n c bs H1 H2 H3.
  pose proof (zget_range _ _ _ H1) as HR. rewrite zlen_repeat in HR. rewrite zget_repeat in H1 by lia. rewrite zget_repeat in H2 by lia. rewrite zget_repeat in H3 by lia.
  injection H1 as <-. injection H2 as <-. injection H3 as <-. exists [], []. repeat split; cbn; try lia; intros k [].
Qed.

Lemma binOK_more size vals n c bs v : binOK size vals n c bs ->
  if n + 1 =? size then binOK size (vals ++ [v]) 0 czero (bs ++ [cadd c v]) else binOK size (vals ++ [v]) (n + 1) (cadd c v) bs.
Proof.
  intros (blocks & rest & (E & HS & HR & H0) & -> & -> & ->). pose proof (zlen_nonneg rest) as HN.
  assert (EL : zlen (rest ++ [v]) = zlen rest + 1) by (rewrite zlen_app; reflexivity).
  destruct (zlen rest + 1 =? size) eqn:EQ.
  - exists (blocks ++ [rest ++ [v]]), []. split; [|repeat split].
    + split; [|split; [|split]].
      * rewrite concat_app. cbn [concat]. rewrite E, !app_nil_r, <- !app_assoc. reflexivity.
      * intros k Hk. apply in_app_or in Hk. destruct Hk as [Hk|[<-|[]]]; [auto|]. lia.
      * intros _. cbn. lia.
      * lia.
    + rewrite map_app. cbn [map]. rewrite csum_snoc. reflexivity.
  - exists blocks, (rest ++ [v]). split; [|repeat split].
    + split; [|split; [|split]]; auto.
      * rewrite E, <- app_assoc. reflexivity.
      * intros H. specialize (HR H). lia.
    + lia.
    + now rewrite csum_snoc.
Qed.

Lemma blRegister_inv nb size calls bl bin v : blInv nb size calls bl -> 0 <= bin < nb ->
  exists bl', blRegister bl bin v = Some bl' /\ blInv nb size (calls ++ [(bin, v)]) bl'.
Proof.
  intros [Hs L1 L2 L3 HB] HR. unfold blRegister.
  destruct (zget_lt (bl_current bl) bin) as (c & Ec); [lia|]. destruct (zget_lt (bl_since bl) bin) as (n & En); [lia|]. destruct (zget_lt (bl_blocks bl) bin) as (bs & Eb); [lia|].
  rewrite Ec. cbn [Base.obind]. destruct (zset_lt (bl_current bl) bin (cadd c v)) as (cur & Ecur); [lia|]. rewrite Ecur. cbn [Base.obind]. rewrite En. cbn [Base.obind].
  destruct (zset_lt (bl_since bl) bin (n + 1)) as (sin & Esin); [lia|]. rewrite Esin. cbn [Base.obind].
  pose proof (binOK_more _ _ _ _ _ v (HB _ _ _ _ En Ec Eb)) as HM. rewrite Hs. destruct (n + 1 =? size) eqn:EQ.
  - rewrite Eb. cbn [Base.obind]. destruct (zset_lt (bl_blocks bl) bin (bs ++ [cadd c v])) as (bl2 & Ebl); [lia|]. rewrite Ebl. cbn [Base.obind].
    destruct (zset_lt sin bin 0) as (sin2 & Es2); [rewrite (zset_len _ _ _ _ Esin); lia|]. rewrite Es2. cbn [Base.obind].
    destruct (zset_lt cur bin czero) as (cur2 & Ec2); [rewrite (zset_len _ _ _ _ Ecur); lia|]. rewrite Ec2. cbn [Base.obind].
    eexists. split; [reflexivity|]. split; cbn.
    + reflexivity.
    + rewrite (zset_len _ _ _ _ Es2), (zset_len _ _ _ _ Esin). exact L1.
    + rewrite (zset_len _ _ _ _ Ec2), (zset_len _ _ _ _ Ecur). exact L2.
    + rewrite (zset_len _ _ _ _ Ebl). exact L3.
    + intros b n' c' bs' H1 H2 H3. rewrite (zset_get _ _ _ _ b Es2), (zset_get _ _ _ _ b Esin) in H1. rewrite (zset_get _ _ _ _ b Ec2), (zset_get _ _ _ _ b Ecur) in H2. rewrite (zset_get _ _ _ _ b Ebl) in H3.
      rewrite registeredIn_app, registeredIn_one. rewrite (Z.eqb_sym bin b). destruct (b =? bin) eqn:EB.
      * apply Z.eqb_eq in EB. subst b. injection H1 as <-. injection H2 as <-. injection H3 as <-. exact HM.
      * rewrite app_nil_r. eauto.
  - eexists. split; [reflexivity|]. split; cbn.
    + reflexivity.
    + rewrite (zset_len _ _ _ _ Esin). exact L1.
    + rewrite (zset_len _ _ _ _ Ecur). exact L2.
    + exact L3.
    + intros b n' c' bs' H1 H2 H3. rewrite (zset_get _ _ _ _ b Esin) in H1. rewrite (zset_get _ _ _ _ b Ecur) in H2.
      rewrite registeredIn_app, registeredIn_one. rewrite (Z.eqb_sym bin b). destruct (b =? bin) eqn:EB.
      * apply Z.eqb_eq in EB. subst b. injection H1 as <-. injection H2 as <-. rewrite Eb in H3. injection H3 as <-. exact HM.
      * rewrite app_nil_r. eauto.
Qed.

Lemma blRegisterAll_inv nb size : forall more calls bl, blInv nb size calls bl -> (forall c, In c more -> 0 <= fst c < nb) ->
  exists bl', blRegisterAll bl more = Some bl' /\ blInv nb size (calls ++ more) bl'.
Proof.
  induction more as [|[b v] more IH]; intros calls bl HI HR.
  - exists bl. rewrite app_nil_r. auto.
  - destruct (blRegister_inv _ _ _ _ b v HI (HR _ (or_introl eq_refl))) as (bl1 & E1 & I1).
    destruct (IH _ _ I1 (fun c Hc => HR c (or_intror Hc))) as (bl2 & E2 & I2).
    exists bl2. unfold blRegisterAll in *. cbn [ofold fst snd]. rewrite E1. cbn [Base.obind]. split; [exact E2|]. rewrite <- app_assoc in I2. exact I2.
Qed.

Lemma blRegister_kept bl b v bl' : blRegister bl b v = Some bl' -> forall b' bs, zget (bl_blocks bl) b' = Some bs -> exists new, zget (bl_blocks bl') b' = Some (bs ++ new).
Proof.
  intros H b' bs Hb. unfold blRegister in H. ob H as c Ec. ob H as cur Ecur. ob H as n En. ob H as sin Esin.
  destruct (n + 1 =? bl_size bl).
  - ob H as bs0 E0. ob H as bl2 E2. ob H as s2 E3. ob H as c2 E4. injection H as <-. cbn. rewrite (zset_get _ _ _ _ b' E2).
    destruct (b' =? b) eqn:EB; [|exists []; now rewrite app_nil_r]. apply Z.eqb_eq in EB. subst b'. rewrite E0 in Hb. injection Hb as ->. eauto.
  - injection H as <-. exists []. now rewrite app_nil_r.
Qed.
Lemma blRegisterAll_kept more : forall bl bl', blRegisterAll bl more = Some bl' -> forall b bs, zget (bl_blocks bl) b = Some bs -> exists new, zget (bl_blocks bl') b = Some (bs ++ new).
Proof.
  unfold blRegisterAll. induction more as [|[b v] more IH]; intros bl bl' H b' bs Hb; cbn [ofold] in H.
  - injection H as <-. exists []. now rewrite app_nil_r.
  - ob H as bl1 E1. destruct (blRegister_kept _ _ _ _ E1 _ _ Hb) as (new & E). destruct (IH _ _ H _ _ E) as (new' & E'). exists (new ++ new'). now rewrite app_assoc.
Qed.

(** ** Moving the history *)
Lemma shift_loop (m : nat) : forall g : list stop, Z.of_nat m < zlen g ->
  exists g', ofold (fun h j => v <- zget h (j - 1) ;; zset h j v) (rev (zrange 1 (Z.of_nat m))) g = Some g' /\ zlen g' = zlen g /\
    forall j, zget g' j = if (1 <=? j) && (j <=? Z.of_nat m) then zget g (j - 1) else zget g j.
Proof.
  induction m as [|m IH]; intros g HL.
  - exists g. cbn. repeat split. intros j. destruct (1 <=? j) eqn:E1, (j <=? 0) eqn:E2; cbn; try reflexivity. lia.
  - rewrite zrange_snoc by lia. replace (Z.of_nat (S m) - 1) with (Z.of_nat m) by lia. rewrite rev_app_distr. cbn [rev app ofold].
    destruct (zget_lt g (Z.of_nat (S m) - 1)) as (v & Ev); [lia|]. rewrite Ev. cbn [Base.obind].
    destruct (zset_lt g (Z.of_nat (S m)) v) as (g1 & E1); [lia|]. rewrite E1. cbn [Base.obind].
    destruct (IH g1) as (g' & E & LL & HG); [rewrite (zset_len _ _ _ _ E1); lia|]. exists g'. split; [exact E|]. split; [rewrite LL; apply (zset_len _ _ _ _ E1)|].
    intros j. rewrite HG, !(zset_get _ _ _ _ _ E1).
    destruct (Z.leb_spec 1 j), (Z.leb_spec j (Z.of_nat m)), (Z.leb_spec j (Z.of_nat (S m))); cbn [andb]; try (exfalso; lia);
      try (destruct (Z.eqb_spec (j - 1) (Z.of_nat (S m))); [exfalso; lia|reflexivity]); destruct (Z.eqb_spec j (Z.of_nat (S m))); try (exfalso; lia); try reflexivity.
    subst j. exact (eq_sym Ev).
Qed.

(** the new history *)
Definition pushed (H : Z) (s : stop) (v : list stop) : list stop := s :: firstn (Z.to_nat (H - 1)) (rev v).
Lemma pushed_firstn H s v : 1 <= H -> pushed H s v = firstn (Z.to_nat H) (rev (v ++ [s])).
Proof. intros HH. rewrite rev_app_distr. cbn [rev app]. unfold pushed. replace (Z.to_nat H) with (S (Z.to_nat (H - 1))) by lia. reflexivity. Qed.
Lemma zlen_firstn {A} n (l : list A) : zlen (firstn n l) = Z.min (Z.of_nat n) (zlen l).
Proof. unfold zlen. rewrite firstn_length. lia. Qed.
Lemma zlen_rev {A} (l : list A) : zlen (rev l) = zlen l.
Proof. unfold zlen. now rewrite rev_length. Qed.

Lemma push_ok H s (v old h1 : list stop) : 1 <= H -> old = firstn (Z.to_nat H) (rev v) -> h1 = (if zlen old <? H then old ++ [(czero, 0)] else old) ->
  exists h2, shiftHistory h1 = Some h2 /\ zset h2 0 s = Some (pushed H s v).
Proof.
  intros HH Eold Eh1.
  assert (LO : zlen old = Z.min H (zlen v)) by (rewrite Eold, zlen_firstn, zlen_rev; lia). pose proof (zlen_nonneg v) as HN.
  assert (L1 : zlen h1 = Z.min (H - 1) (zlen v) + 1) by (rewrite Eh1; destruct (zlen old <? H) eqn:E; rewrite ?zlen_app, ?zlen_cons, ?zlen_nil; lia).
  unfold shiftHistory. replace (zlen h1 - 1) with (Z.of_nat (Z.to_nat (zlen h1 - 1))) by lia.
  destruct (shift_loop (Z.to_nat (zlen h1 - 1)) h1) as (h2 & E & L2 & HG); [lia|]. exists h2. split; [exact E|].
  destruct (zset_lt h2 0 s) as (h3 & E3); [lia|]. rewrite E3. f_equal. apply PBase.zget_ext. intros j.
  rewrite (zset_get _ _ _ _ j E3), HG. unfold pushed. rewrite zget_cons. destruct (j =? 0) eqn:EJ; [reflexivity|].
  rewrite firstn_get. destruct (1 <=? j) eqn:A.
  - destruct (j <=? Z.of_nat (Z.to_nat (zlen h1 - 1))) eqn:B; cbn [andb].
    + replace (j - 1 <? Z.of_nat (Z.to_nat (H - 1))) with true by lia.
      rewrite Eh1. assert (HX : zget old (j - 1) = zget (rev v) (j - 1)) by (rewrite Eold, firstn_get; replace (j - 1 <? Z.of_nat (Z.to_nat H)) with true by lia; reflexivity).
      destruct (zlen old <? H) eqn:EL; [|exact HX]. rewrite zget_app_l by lia. exact HX.
    + rewrite (proj2 (zget_None h1 j)) by lia. destruct (j - 1 <? Z.of_nat (Z.to_nat (H - 1))) eqn:C; [|reflexivity].
      symmetry. apply zget_None. rewrite zlen_rev. lia.
  - cbn [andb]. rewrite zget_neg by lia. destruct (j - 1 <? Z.of_nat (Z.to_nat (H - 1))); [|reflexivity]. now rewrite zget_neg by lia.
Qed.

(** ** The histograms *)
Lemma flat_map_ext_in {A B} (f g : A -> list B) l : (forall a, In a l -> f a = g a) -> flat_map f l = flat_map g l.
Proof. induction l as [|a l IH]; intros E; [reflexivity|]. cbn. rewrite (E a) by now left. rewrite IH; [reflexivity|]. intros b Hb. apply E. now right. Qed.
Lemma flat_map_nil {A B} (l : list A) : flat_map (fun _ => @nil B) l = [].
Proof. induction l; auto. Qed.
Lemma nth_error_rev_local {A} (l : list A) n : (n < length l)%nat -> nth_error (rev l) n = nth_error l (length l - S n).
Proof.
  intros Hn. destruct l as [|a l']; [cbn in Hn; lia|]. set (l := a :: l') in *.
  rewrite (nth_error_nth' (rev l) a) by (rewrite rev_length; exact Hn). rewrite (nth_error_nth' l a) by lia. now rewrite rev_nth by exact Hn.
Qed.
Lemma filter_one {A} (f : A -> bool) a : filter f [a] = if f a then [a] else [].
Proof. reflexivity. Qed.
Lemma vinc_ok l i v : zget l i = Some v -> exists l', vinc l i = Some l' /\ zlen l' = zlen l /\ forall j, zget l' j = if j =? i then Some (v + 1) else zget l j.
Proof.
  intros H. unfold vinc. rewrite H. cbn [Base.obind]. destruct (zset_lt l i (v + 1)) as (l' & E); [apply (zget_range _ _ _ H)|]. exists l'. split; [exact E|].
  split; [apply (zset_len _ _ _ _ E)|]. intros j. apply (zset_get _ _ _ _ _ E).
Qed.

Section Bins.
Context (H nb tmax size : Z) (track : string) (ca cb cc : coord) (H1 : 1 <= H) (Hnb : 0 <= nb) (Ht : 0 < tmax).
Notation falls := (fallsIn tmax nb).
Notation sq := (squared ca cb cc).
Record msFits (log : list comparison) (ms : msd) : Prop := {
  mf_track : ms_track ms = track;
  mf_tmax : ms_tmax ms = tmax;
  mf_nbins : ms_nbins ms = nb;
  mf_steps : ms_steps ms = H;
  mf_abc : ms_abc ms = transpose3 ca cb cc;
  mf_lhist : zlen (ms_hist ms) = nb;
  mf_lsqr : zlen (ms_sqr ms) = nb;
  mf_lbins : zlen (ms_bins ms) = nb;
  mf_lhbins : zlen (ms_hbins ms) = H - 1;
  mf_lhcounts : zlen (ms_hcounts ms) = H;
  mf_hist : forall b, 0 <= b < nb -> zget (ms_hist ms) b = Some (csum (map sq (filter (falls b) log)));
  mf_sqr : forall b, 0 <= b < nb -> zget (ms_sqr ms) b = Some (csum (map (fun c => squares (sq c)) (filter (falls b) log)));
  mf_bins : forall b, 0 <= b < nb -> zget (ms_bins ms) b = Some (tally (falls b) log);
  mf_hbins : forall k, 0 <= k < H - 1 -> exists row, zget (ms_hbins ms) k = Some row /\ zlen row = nb /\
               forall b, 0 <= b < nb -> zget row b = Some (tally (fun c => (lag c =? k + 1) && falls b c) log);
  mf_hcounts : forall k, 0 <= k < H -> zget (ms_hcounts ms) k = Some (tally (fun c => lag c =? k + 1) log);
  mf_blocker : exists calls, blInv nb size calls (ms_blocker ms) /\ forall b, 0 <= b < nb -> registeredIn b calls = map sq (filter (falls b) log) }.

Lemma mkMSD_fits cf t0 ms : mkMSD cf H nb tmax t0 track (transpose3 ca cb cc) size = Some ms -> msFits [] ms.
Proof.
  unfold mkMSD. destruct ((nb <? 0) || (H <? 1)) eqn:E; [lia|]. intros E0. destruct (mkBlocker_inv nb size Hnb) as (bl & Eb & Ib). rewrite Eb in E0. cbn [Base.obind] in E0. ob E0 as hb Eh. injection E0 as <-.
  split; cbn; rewrite ?zlen_repeat; try reflexivity; try lia.
  - intros b Hb. now rewrite zget_repeat by lia.
  - intros b Hb. now rewrite zget_repeat by lia.
  - intros b Hb. now rewrite zget_repeat by lia.
  - intros k Hk. exists (repeat 0 (Z.to_nat nb)). rewrite zget_repeat by lia. rewrite zlen_repeat. repeat split; [lia|]. intros b Hb. now rewrite zget_repeat by lia.
  - intros k Hk. now rewrite zget_repeat by lia.
  - exists []. split; [exact Ib|]. reflexivity.
Qed.

Lemma binOne_ok log ms (h : list stop) i (s y : stop) : msFits log ms -> zget h 0 = Some s -> zget h i = Some y -> 1 <= i <= H - 1 -> snd y <= snd s ->
  exists ms', binOne h ms i = Some ms' /\ msFits (log ++ [(i, s, y)]) ms' /\ ms_history ms' = ms_history ms.
Proof using H1 Hnb Ht.
  intros F E0 Ei Hi Hts. destruct F as [F1 F2 F3 F4 F5 F6 F7 F8 F9 F10 F11 F12 F13 F14 F15 (calls & F16 & F17)].
  unfold binOne. destruct (vinc_ok (ms_hcounts ms) (i - 1) _ (F15 (i - 1) ltac:(lia))) as (hc & Ehc & Lhc & Ghc). rewrite Ehc. cbn [Base.obind]. rewrite E0. cbn [Base.obind]. rewrite Ei. cbn [Base.obind].
  unfold binOf. rewrite F2, F3. destruct (tmax =? 0) eqn:ET; [lia|]. cbn [Base.obind]. set (dt := snd s - snd y). set (bin := Z.quot (dt * nb) tmax).
  assert (HB : forall b, falls b (i, s, y) = (bin =? b)).
  { intros b. unfold fallsIn. cbn [newer older fst snd]. apply inBin_quot; [exact Ht|]. apply Z.mul_nonneg_nonneg; [unfold newer, older; cbn; lia|lia]. }
  assert (HCN : forall k, 0 <= k < H -> zget hc k = Some (tally (fun c => lag c =? k + 1) (log ++ [(i, s, y)]))).
  { intros k Hk. rewrite Ghc, tally_app, tally_one. change (lag (i, s, y)) with i. destruct (k =? i - 1) eqn:EK.
    - replace (i =? k + 1) with true by lia. f_equal. f_equal. apply Z.eqb_eq in EK. subst k. reflexivity.
    - replace (i =? k + 1) with false by lia. rewrite (F15 k Hk). f_equal. lia. }
  rewrite F6. destruct ((0 <=? bin) && (bin <? nb)) eqn:EB.
  - rewrite F5. change (zget (transpose3 ca cb cc) 0) with (Some (mkC (cx ca) (cx cb) (cx cc))). change (zget (transpose3 ca cb cc) 1) with (Some (mkC (cy ca) (cy cb) (cy cc))). change (zget (transpose3 ca cb cc) 2) with (Some (mkC (cz ca) (cz cb) (cz cc))). cbn [Base.obind].
    set (diff := csub (fst y) (fst s)).
    set (sd := codiag (mkC (cdot diff (mkC (cx ca) (cx cb) (cx cc))) (cdot diff (mkC (cy ca) (cy cb) (cy cc))) (cdot diff (mkC (cz ca) (cz cb) (cz cc)))) (mkC (cdot diff (mkC (cx ca) (cx cb) (cx cc))) (cdot diff (mkC (cy ca) (cy cb) (cy cc))) (cdot diff (mkC (cz ca) (cz cb) (cz cc))))).
    assert (ES : sd = sq (i, s, y)).
    { unfold sd, diff, squared, squares, cartesian, codiag, cdot, csub, newer, older. cbn [cx cy cz fst snd]. f_equal; ring. }
    assert (ES2 : codiag sd sd = squares (sq (i, s, y))) by (rewrite <- ES; unfold squares, codiag; f_equal; ring).
    rewrite (F11 bin) by lia. cbn [Base.obind]. destruct (zset_lt (ms_hist ms) bin (cadd (csum (map sq (filter (falls bin) log))) sd)) as (hist & Eh); [lia|]. rewrite Eh. cbn [Base.obind].
    rewrite (F12 bin) by lia. cbn [Base.obind]. destruct (zset_lt (ms_sqr ms) bin (cadd (csum (map (fun c => squares (sq c)) (filter (falls bin) log))) (codiag sd sd))) as (sqr & Es); [lia|]. rewrite Es. cbn [Base.obind].
    destruct (vinc_ok (ms_bins ms) bin _ (F13 bin ltac:(lia))) as (bins & Ebi & Lbi & Gbi). rewrite Ebi. cbn [Base.obind].
    destruct (F14 (i - 1) ltac:(lia)) as (row & Er & Lr & Gr). rewrite Er. cbn [Base.obind].
    destruct (vinc_ok row bin _ (Gr bin ltac:(lia))) as (row' & Er' & Lr' & Gr'). rewrite Er'. cbn [Base.obind].
    destruct (zset_lt (ms_hbins ms) (i - 1) row') as (hbins & Ehb); [lia|]. rewrite Ehb. cbn [Base.obind].
    destruct (blRegister_inv _ _ _ _ bin sd F16 ltac:(lia)) as (bl & Ebl & Ibl). rewrite Ebl. cbn [Base.obind].
    eexists. split; [reflexivity|]. split; [|reflexivity]. split; cbn [ms_track ms_tmax ms_nbins ms_steps ms_abc ms_hist ms_sqr ms_bins ms_hbins ms_hcounts ms_blocker]; auto.
    + rewrite (zset_len _ _ _ _ Eh). exact F6.
    + rewrite (zset_len _ _ _ _ Es). exact F7.
    + lia.
    + rewrite (zset_len _ _ _ _ Ehb). exact F9.
    + lia.
    + intros b Hb. rewrite (zset_get _ _ _ _ b Eh), filter_app, filter_one, HB, (Z.eqb_sym bin b). destruct (b =? bin) eqn:E.
      * apply Z.eqb_eq in E. subst b. rewrite map_app. cbn [map]. rewrite csum_snoc, ES. reflexivity.
      * rewrite app_nil_r. apply F11. exact Hb.
    + intros b Hb. rewrite (zset_get _ _ _ _ b Es), filter_app, filter_one, HB, (Z.eqb_sym bin b). destruct (b =? bin) eqn:E.
      * apply Z.eqb_eq in E. subst b. rewrite map_app. cbn [map]. rewrite csum_snoc, ES2. reflexivity.
      * rewrite app_nil_r. apply F12. exact Hb.
    + intros b Hb. rewrite Gbi, tally_app, tally_one, HB, (Z.eqb_sym bin b). destruct (b =? bin) eqn:E.
      * apply Z.eqb_eq in E. subst b. reflexivity.
      * rewrite Z.add_0_r. apply F13. exact Hb.
    + intros k Hk. rewrite (zset_get _ _ _ _ k Ehb). destruct (k =? i - 1) eqn:EK.
      * exists row'. split; [reflexivity|]. split; [lia|]. intros b Hb. rewrite Gr', tally_app, tally_one, HB, (Z.eqb_sym bin b). change (lag (i, s, y)) with i. replace (i =? k + 1) with true by lia. cbn [andb].
        apply Z.eqb_eq in EK. subst k. destruct (b =? bin) eqn:E; [apply Z.eqb_eq in E; subst b; reflexivity|]. rewrite Z.add_0_r. apply Gr. exact Hb.
      * destruct (F14 k Hk) as (r & E1 & E2 & E3). exists r. split; [exact E1|]. split; [exact E2|]. intros b Hb. rewrite (E3 b Hb), tally_app, tally_one. change (lag (i, s, y)) with i. replace (i =? k + 1) with false by lia. cbn [andb]. f_equal. lia.
    + exists (calls ++ [(bin, sd)]). split; [exact Ibl|]. intros b Hb. rewrite registeredIn_app, registeredIn_one, filter_app, filter_one, HB, F17 by exact Hb. destruct (bin =? b); rewrite map_app; [|reflexivity]. cbn [map]. rewrite ES. reflexivity.
  - eexists. split; [reflexivity|]. split; [|reflexivity].
    assert (HF : forall b, 0 <= b < nb -> falls b (i, s, y) = false) by (intros b Hb; rewrite HB; lia).
    split; cbn [ms_track ms_tmax ms_nbins ms_steps ms_abc ms_hist ms_sqr ms_bins ms_hbins ms_hcounts ms_blocker]; auto.
    + lia.
    + intros b Hb. rewrite filter_app, filter_one, HF, app_nil_r by exact Hb. auto.
    + intros b Hb. rewrite filter_app, filter_one, HF, app_nil_r by exact Hb. auto.
    + intros b Hb. rewrite tally_app, tally_one, HF, Z.add_0_r by exact Hb. auto.
    + intros k Hk. destruct (F14 k Hk) as (r & E1 & E2 & E3). exists r. split; [exact E1|]. split; [exact E2|]. intros b Hb. rewrite (E3 b Hb), tally_app, tally_one, HF by exact Hb. rewrite Bool.andb_false_r. f_equal. lia.
    + exists calls. split; [exact F16|]. intros b Hb. rewrite filter_app, filter_one, HF, app_nil_r by exact Hb. auto.
Qed.

(** the comparisons with the stop at the head of h *)
Definition fresh (h : list stop) (s : stop) (n : Z) : list comparison := flat_map (fun d => match zget h d with Some y => [(d, s, y)] | None => [] end) (zrange 1 n).
Lemma fold_bins (h : list stop) (s : stop) log (n : nat) : forall ms, msFits log ms -> zget h 0 = Some s -> (forall y, In y h -> snd y <= snd s) -> Z.of_nat n < zlen h -> Z.of_nat n <= H - 1 ->
  exists ms', ofold (binOne h) (zrange 1 (Z.of_nat n)) ms = Some ms' /\ msFits (log ++ fresh h s (Z.of_nat n)) ms' /\ ms_history ms' = ms_history ms.
Proof using H1 Hnb Ht.
  induction n as [|n IH]; intros ms F E0 HT HL HN.
  - exists ms. cbn. rewrite app_nil_r. auto.
  - destruct (IH ms F E0 HT) as (ms1 & E1 & F1 & Q1); [lia|lia|]. unfold fresh. rewrite zrange_snoc by lia. replace (Z.of_nat (S n) - 1) with (Z.of_nat n) by lia. rewrite ofold_app, E1. cbn [Base.obind ofold].
    destruct (zget_lt h (Z.of_nat (S n))) as (y & Ey); [lia|].
    destruct (binOne_ok _ ms1 h (Z.of_nat (S n)) s y F1 E0 Ey ltac:(lia) (HT _ (zget_In _ _ _ Ey))) as (ms2 & E2 & F2 & Q2). rewrite E2. cbn [Base.obind]. exists ms2. split; [reflexivity|]. split; [|congruence].
    rewrite flat_map_app. cbn [flat_map]. rewrite Ey, app_nil_r, app_assoc. exact F2.
Qed.

Lemma compared_snoc reach (v : list stop) (s : stop) : compared reach (v ++ [s]) = compared reach v ++ fresh (s :: rev v) s reach.
Proof.
  assert (EL : zlen (v ++ [s]) = zlen v + 1) by (rewrite zlen_app; reflexivity). unfold compared. rewrite EL. pose proof (zlen_nonneg v) as HN. rewrite (zrange_snoc 0) by lia. rewrite flat_map_app. cbn [flat_map]. rewrite app_nil_r.
  replace (zlen v + 1 - 1 - 1) with (zlen v - 1) by lia. replace (zlen v + 1 - 1) with (zlen v) by lia. f_equal.
  - apply flat_map_ext_in. intros k Hk. apply In_zrange in Hk. apply flat_map_ext_in. intros d Hd. apply In_zrange in Hd. rewrite !zget_app_l by lia. reflexivity.
  - unfold fresh. apply flat_map_ext_in. intros d Hd. apply In_zrange in Hd. rewrite zget_app_r by lia. rewrite Z.sub_diag, zget_0.
    rewrite zget_cons. replace (d =? 0) with false by lia. destruct (Z_lt_dec (zlen v) d) as [HD|HD].
    + rewrite (zget_neg _ (zlen v - d)) by lia. rewrite (proj2 (zget_None (rev v) (d - 1))); [reflexivity|]. rewrite zlen_rev. lia.
    + rewrite zget_app_l by lia. rewrite !zget_nth by lia. rewrite nth_error_rev_local by (unfold zlen in *; lia). replace (Z.to_nat (zlen v - d)) with (length v - S (Z.to_nat (d - 1)))%nat by (unfold zlen in *; lia). reflexivity.
Qed.
End Bins.

Lemma fresh_firstn (v : list stop) s m : 0 <= m -> fresh (s :: firstn (Z.to_nat m) (rev v)) s (zlen (firstn (Z.to_nat m) (rev v))) = fresh (s :: rev v) s m.
Proof.
  intros Hm. rewrite zlen_firstn, zlen_rev. pose proof (zlen_nonneg v) as HN. set (k := Z.min (Z.of_nat (Z.to_nat m)) (zlen v)).
  assert (EZ : zrange 1 m = zrange 1 k ++ zrange (k + 1) m).
  { unfold zrange. replace (Z.to_nat (m - 1 + 1)) with (Z.to_nat (k - 1 + 1) + Z.to_nat (m - (k + 1) + 1))%nat by lia. rewrite zseq_app. f_equal. f_equal. lia. }
  unfold fresh. rewrite EZ, flat_map_app. rewrite (flat_map_ext_in _ (fun _ => []) (zrange (k + 1) m)).
  - rewrite flat_map_nil, app_nil_r. apply flat_map_ext_in. intros d Hd. apply In_zrange in Hd. rewrite !zget_cons, firstn_get. destruct (d =? 0); [reflexivity|].
    replace (d - 1 <? Z.of_nat (Z.to_nat m)) with true by lia. reflexivity.
  - intros d Hd. apply In_zrange in Hd. rewrite zget_cons. replace (d =? 0) with false by lia. rewrite (proj2 (zget_None (rev v) (d - 1))); [reflexivity|]. rewrite zlen_rev. lia.
Qed.

Lemma flat_map_grow {A B} (f g : A -> list B) l a new : NoDup l -> In a l -> (forall b, In b l -> b <> a -> g b = f b) -> g a = f a ++ new -> Permutation (flat_map g l) (flat_map f l ++ new).
Proof.
  intros ND HI HO HA. apply in_split in HI. destruct HI as (l1 & l2 & ->). rewrite !flat_map_app. cbn [flat_map]. rewrite HA.
  assert (N1 : ~ In a l1 /\ ~ In a l2).
  { pose proof (NoDup_remove_2 _ _ _ ND) as N. split; intros X; apply N, in_or_app; auto. }
  rewrite (flat_map_ext_in g f l1), (flat_map_ext_in g f l2).
  - rewrite <- !app_assoc. apply Permutation_app_head, Permutation_app_head, Permutation_app_comm.
  - intros b Hb. apply HO; [apply in_or_app; right; now right|]. intros ->. tauto.
  - intros b Hb. apply HO; [apply in_or_app; now left|]. intros ->. tauto.
Qed.

Section Run.
Context (H nb tmax size n : Z) (track : string) (ca cb cc : coord) (H1 : 1 <= H) (Hnb : 0 <= nb) (Ht : 0 < tmax).
Record msInv (t : Z) (V : Z -> list stop) (log : list comparison) (ms : msd) : Prop := {
  mi_fits : msFits H nb tmax size track ca cb cc log ms;
  mi_len : zlen (ms_history ms) = n;
  mi_hist : forall id, 0 <= id < n -> zget (ms_history ms) id = Some (firstn (Z.to_nat H) (rev (V id)));
  mi_times : forall id y, 0 <= id < n -> In y (V id) -> snd y <= t;
  mi_log : Permutation log (allCompared (H - 1) n V) }.

Lemma msInv_ext t V V' log ms : (forall id, 0 <= id < n -> V' id = V id) -> msInv t V log ms -> msInv t V' log ms.
Proof.
  intros HE [F L HH HT HP]. split; auto.
  - intros id Hid. rewrite HE by exact Hid. auto.
  - intros id y Hid. rewrite HE by exact Hid. eauto.
  - rewrite HP. unfold allCompared. apply Permutation_refl'. apply flat_map_ext_in. intros id Hid. apply In_zrange in Hid. rewrite HE by lia. reflexivity.
Qed.
Lemma msInv_time t t' V log ms : t <= t' -> msInv t V log ms -> msInv t' V log ms.
Proof. intros HT [F L HH HS HP]. split; auto. intros id y Hid Hy. specialize (HS id y Hid Hy). lia. Qed.

Lemma registerAtom_ok t cf V log ms id : nAtoms n (t, cf) -> msInv t V log ms -> 0 <= id < n ->
  exists ms' log', registerAtom t cf ms id = Some ms' /\ msInv t (fun j => V j ++ (if id =? j then stopAt track j (t, cf) else [])) log' ms'.
Proof using H1 Hnb Ht.
  intros (_ & LE & LC & _) I Hid. cbn [snd] in LE, LC. unfold registerAtom.
  destruct (zget_lt (cf_aidelements cf) id) as (ty & Ety); [lia|]. destruct (zget_lt (cf_aidcoords cf) id) as (c & Ec); [lia|]. rewrite Ety. cbn [Base.obind].
  rewrite (mf_track _ _ _ _ _ _ _ _ _ _ (mi_fits _ _ _ _ I)). destruct (String.eqb ty track) eqn:ET.
  - pose proof (mi_hist _ _ _ _ I id Hid) as EH. rewrite EH. cbn [Base.obind]. cbv zeta. rewrite (mf_steps _ _ _ _ _ _ _ _ _ _ (mi_fits _ _ _ _ I)).
    destruct (push_ok H (c, t) (V id) _ _ H1 eq_refl eq_refl) as (h2 & E2 & E3). rewrite E2. cbn [Base.obind]. rewrite Ec. cbn [Base.obind]. rewrite E3. cbn [Base.obind].
    destruct (zset_lt (ms_history ms) id (pushed H (c, t) (V id))) as (hb & Ehb); [rewrite (mi_len _ _ _ _ I); exact Hid|]. rewrite Ehb. cbn [Base.obind].
    assert (ES : stopAt track id (t, cf) = [(c, t)]) by (unfold stopAt; cbn [snd fst]; rewrite Ety, Ec, ET; reflexivity).
    set (h := pushed H (c, t) (V id)) in *.
    assert (HL : zlen h = Z.min (H - 1) (zlen (V id)) + 1) by (unfold h, pushed; rewrite zlen_cons, zlen_firstn, zlen_rev; lia). pose proof (zlen_nonneg (V id)) as HN.
    assert (F0 : msFits H nb tmax size track ca cb cc log (set_history ms hb)) by (destruct (mi_fits _ _ _ _ I); now split).
    destruct (fold_bins H nb tmax size track ca cb cc H1 Hnb Ht h (c, t) log (Z.to_nat (zlen h - 1)) _ F0 eq_refl) as (ms' & E' & F' & Q'); [|lia|lia|].
    { intros y [<-|Hy]; [cbn; lia|]. apply firstn_In_local, in_rev in Hy. exact (mi_times _ _ _ _ I id y Hid Hy). }
    unfold calculateAndBin. replace (zlen h - 1) with (Z.of_nat (Z.to_nat (zlen h - 1))) by lia. exists ms', (log ++ fresh h (c, t) (Z.of_nat (Z.to_nat (zlen h - 1)))). split; [exact E'|].
    split.
    + exact F'.
    + rewrite Q'. cbn. rewrite (zset_len _ _ _ _ Ehb). apply (mi_len _ _ _ _ I).
    + intros j Hj. rewrite Q'. cbn. rewrite (zset_get _ _ _ _ j Ehb), (Z.eqb_sym id j). destruct (j =? id) eqn:EJ.
      * apply Z.eqb_eq in EJ. subst j. rewrite ES. unfold h. now rewrite pushed_firstn.
      * rewrite app_nil_r. apply (mi_hist _ _ _ _ I j Hj).
    + intros j y Hj Hy. destruct (id =? j) eqn:EJ; [|rewrite app_nil_r in Hy; exact (mi_times _ _ _ _ I j y Hj Hy)]. apply Z.eqb_eq in EJ. subst j. rewrite ES in Hy. apply in_app_or in Hy. destruct Hy as [Hy|[<-|[]]]; [exact (mi_times _ _ _ _ I id y Hj Hy)|cbn; lia].
    + unfold allCompared. symmetry. etransitivity; [apply (flat_map_grow (fun id => compared (H - 1) (V id)) _ (zrange 0 (n - 1)) id (fresh h (c, t) (Z.of_nat (Z.to_nat (zlen h - 1)))))|apply Permutation_app_tail; symmetry; apply (mi_log _ _ _ _ I)].
      * apply NoDup_zrange.
      * apply In_zrange. lia.
      * intros j _ Hj. replace (id =? j) with false by lia. now rewrite app_nil_r.
      * rewrite Z.eqb_refl, ES, compared_snoc. f_equal. rewrite <- fresh_firstn by lia. unfold h, pushed. rewrite zlen_cons. f_equal. pose proof (zlen_nonneg (firstn (Z.to_nat (H - 1)) (rev (V id)))). lia.
  - exists ms, log. split; [reflexivity|]. apply (msInv_ext t V); [|exact I]. intros j Hj. destruct (id =? j) eqn:EJ; [|now rewrite app_nil_r]. apply Z.eqb_eq in EJ. subst j. unfold stopAt. cbn [snd fst]. rewrite Ety, Ec, ET. now rewrite app_nil_r.
Qed.

Lemma registerAll_ok t cf : nAtoms n (t, cf) -> forall ids, (forall id, In id ids -> 0 <= id < n) -> forall V log ms, msInv t V log ms ->
  exists ms' log', ofold (registerAtom t cf) ids ms = Some ms' /\ msInv t (fun j => V j ++ flat_map (fun i => if i =? j then stopAt track j (t, cf) else []) ids) log' ms'.
Proof using H1 Hnb Ht.
  intros NA. induction ids as [|id ids IH]; intros HR V log ms I.
  - exists ms, log. split; [reflexivity|]. apply (msInv_ext t V); [|exact I]. intros j _. cbn. now rewrite app_nil_r.
  - destruct (registerAtom_ok t cf V log ms id NA I (HR id (or_introl eq_refl))) as (ms1 & log1 & E1 & I1). destruct (IH (fun i Hi => HR i (or_intror Hi)) _ _ _ I1) as (ms2 & log2 & E2 & I2).
    exists ms2, log2. cbn [ofold]. rewrite E1. cbn [Base.obind]. split; [exact E2|]. eapply msInv_ext; [|exact I2]. intros j _. cbn [flat_map]. now rewrite app_assoc.
Qed.

Lemma msSteps_ok : forall steps t V log ms, msInv t V log ms -> (forall o, In o steps -> nAtoms n o) -> forwards t (map fst steps) ->
  exists ms' log' t', msSteps ms steps = Some ms' /\ msInv t' (fun j => V j ++ flat_map (fun o => flat_map (fun i => if i =? j then stopAt track j o else []) (movedAtomIDs (snd o))) steps) log' ms'.
Proof using H1 Hnb Ht.
  induction steps as [|[t1 cf1] steps IH]; intros t V log ms I NA FW.
  - exists ms, log, t. split; [reflexivity|]. apply (msInv_ext t V); [|exact I]. intros j _. cbn. now rewrite app_nil_r.
  - assert (T1 : t <= t1) by (specialize (FW (t1 - t) (or_introl eq_refl)); lia). pose proof (NA _ (or_introl eq_refl)) as N1.
    destruct (registerAll_ok t1 cf1 N1 (movedAtomIDs cf1) (proj2 (proj2 (proj2 N1))) V log ms (msInv_time _ _ _ _ _ T1 I)) as (ms1 & log1 & E1 & I1).
    destruct (IH _ _ _ _ I1 (fun o Ho => NA o (or_intror Ho))) as (ms2 & log2 & t2 & E2 & I2); [intros d Hd; apply FW; now right|].
    exists ms2, log2, t2. unfold msSteps in *. cbn [ofold fst snd]. unfold msRegister at 1. rewrite E1. cbn [Base.obind]. split; [exact E2|]. eapply msInv_ext; [|exact I2]. intros j _. cbn [flat_map snd]. now rewrite app_assoc.
Qed.

Lemma start_ok t cf : nAtoms n (t, cf) -> exists ms, mkMSD cf H nb tmax t track (transpose3 ca cb cc) size = Some ms /\ msInv t (fun j => stopAt track j (t, cf)) [] ms.
Proof using H1 Hnb Ht.
  intros (LEL & LE & LC & _). cbn [snd] in *.
  assert (HB : forall m : nat, Z.of_nat m <= n -> exists hb, ofold (fun hb i => ty <- zget (cf_aidelements cf) i ;;
                 if String.eqb ty track then c <- zget (cf_aidcoords cf) i ;; h <- zget hb i ;; zset hb i (h ++ [(c, t)]) else Some hb) (zrange 0 (Z.of_nat m - 1)) (repeat [] (length (cf_elements cf))) = Some hb
              /\ zlen hb = n /\ (forall j, 0 <= j < Z.of_nat m -> zget hb j = Some (stopAt track j (t, cf))) /\ (forall j, Z.of_nat m <= j < n -> zget hb j = Some [])).
  { pose proof (zlen_nonneg (cf_elements cf)) as HN. induction m as [|m IH]; intros Hm.
    - eexists. split; [reflexivity|]. split; [rewrite zlen_repeat; unfold zlen in LEL; lia|]. split; [lia|]. intros j Hj. apply zget_repeat. unfold zlen in LEL. lia.
    - destruct IH as (hb & E & L & G1 & G2); [lia|]. rewrite zrange_snoc by lia. replace (Z.of_nat (S m) - 1 - 1) with (Z.of_nat m - 1) by lia. replace (Z.of_nat (S m) - 1) with (Z.of_nat m) by lia. rewrite ofold_app, E. cbn [Base.obind ofold].
      destruct (zget_lt (cf_aidelements cf) (Z.of_nat m)) as (ty & Ety); [lia|]. destruct (zget_lt (cf_aidcoords cf) (Z.of_nat m)) as (c & Ec); [lia|]. rewrite Ety. cbn [Base.obind].
      assert (ES : stopAt track (Z.of_nat m) (t, cf) = if String.eqb ty track then [(c, t)] else []) by (unfold stopAt; cbn [fst snd]; rewrite Ety, Ec; reflexivity).
      destruct (String.eqb ty track) eqn:ET.
      + rewrite Ec. cbn [Base.obind]. rewrite (G2 (Z.of_nat m)) by lia. cbn [Base.obind app]. destruct (zset_lt hb (Z.of_nat m) [(c, t)]) as (hb' & E'); [lia|]. rewrite E'. cbn [Base.obind]. exists hb'. split; [reflexivity|]. split; [rewrite (zset_len _ _ _ _ E'); exact L|].
        split; intros j Hj; rewrite (zset_get _ _ _ _ j E'); destruct (j =? Z.of_nat m) eqn:EJ.
        * apply Z.eqb_eq in EJ. subst j. now rewrite ES.
        * apply G1. lia.
        * lia.
        * apply G2. lia.
      + cbn [Base.obind]. exists hb. split; [reflexivity|]. split; [exact L|]. split; intros j Hj; [|apply G2; lia]. destruct (j =? Z.of_nat m) eqn:EJ; [|apply G1; lia]. apply Z.eqb_eq in EJ. subst j. rewrite ES. apply G2. lia. }
  assert (Hn : 0 <= n) by (pose proof (zlen_nonneg (cf_elements cf)); lia).
  destruct (HB (Z.to_nat n) ltac:(lia)) as (hb & E & L & G & _). replace (Z.of_nat (Z.to_nat n) - 1) with (zlen (cf_aidcoords cf) - 1) in E by lia.
  destruct (mkBlocker_inv nb size Hnb) as (bl & Eb & _).
  assert (EM : exists ms, mkMSD cf H nb tmax t track (transpose3 ca cb cc) size = Some ms /\ ms_history ms = hb).
  { unfold mkMSD. destruct ((nb <? 0) || (H <? 1)) eqn:EX; [lia|]. rewrite Eb. cbn [Base.obind]. rewrite E. cbn [Base.obind]. eexists. split; reflexivity. }
  destruct EM as (ms & EM & EH). exists ms. split; [exact EM|]. split.
  - exact (mkMSD_fits H nb tmax size track ca cb cc H1 Hnb _ _ _ EM).
  - rewrite EH. exact L.
  - intros id Hid. rewrite EH, G by lia. unfold stopAt. cbn [fst snd]. destruct (zget (cf_aidelements cf) id), (zget (cf_aidcoords cf) id); try destruct (String.eqb s track); cbn; try (destruct (Z.to_nat H); reflexivity).
    + replace (Z.to_nat H) with (S (Z.to_nat (H - 1))) by lia. cbn. now destruct (Z.to_nat (H - 1)).
  - intros id y Hid Hy. unfold stopAt in Hy. cbn [fst snd] in Hy. destruct (zget (cf_aidelements cf) id), (zget (cf_aidcoords cf) id); try destruct (String.eqb s track); try (now destruct Hy). destruct Hy as [<-|[]]. cbn. lia.
  - unfold allCompared. replace (flat_map _ _) with (@nil comparison); [constructor|]. symmetry. induction (zrange 0 (n - 1)) as [|id l IHl]; [reflexivity|]. cbn [flat_map]. rewrite IHl, app_nil_r. unfold stopAt. cbn [fst snd].
    assert (E1 : forall r (x : stop), compared r [x] = []).
    { intros r x. change [x] with ([] ++ [x]). rewrite compared_snoc. unfold compared. cbn [rev app]. change (zrange 0 (zlen (@nil stop) - 1)) with (@nil Z). cbn [flat_map app]. unfold fresh. rewrite (flat_map_ext_in _ (fun _ => [])); [apply flat_map_nil|].
      intros d Hd. apply In_zrange in Hd. rewrite (proj2 (zget_None [x] d)); [reflexivity|]. change (zlen [x]) with 1. lia. }
    destruct (zget (cf_aidelements cf) id), (zget (cf_aidcoords cf) id); try destruct (String.eqb s track); try reflexivity. apply E1.
Qed.
End Run.

Lemma Permutation_filter_local {A} (f : A -> bool) l m : Permutation l m -> Permutation (filter f l) (filter f m).
Proof. induction 1 as [|a l m P IH|a b l|l m k P1 IH1 P2 IH2]; cbn; auto; [destruct (f a); auto|destruct (f a), (f b); auto; constructor|etransitivity; eauto]. Qed.
Lemma csum_perm l m : Permutation l m -> csum l = csum m.
Proof. induction 1 as [|a l m P IH|a b l|l m k P1 IH1 P2 IH2]; unfold csum in *; cbn [fold_right]; [reflexivity|now rewrite IH| |congruence]. unfold cadd. cbn. f_equal; lia. Qed.

(** ** what the blocker reports *)
Lemma zsum_csum f : In f [cx; cy; cz] -> forall l, zsum (map f l) = f (csum l).
Proof. intros Hf l. induction l as [|c l IH]; [destruct Hf as [<-|[<-|[<-|[]]]]; reflexivity|]. cbn [map]. rewrite zsum_cons, IH. destruct Hf as [<-|[<-|[<-|[]]]]; reflexivity. Qed.
Lemma sum_component f g size rho : In (f, g) components -> forall blocks acc, (forall k, In k blocks -> zlen k = size) ->
  g (fold_left (fun sum b => let tmp0 := rmap (fun v => v / IZR size)%R (rofZ b) in let tmp1 := rzip Rminus tmp0 rho in rzip Rplus sum (rmap (fun v => v * v)%R tmp1)) (map csum blocks) acc)
  = (g acc + deviation f (g rho) blocks)%R.
Proof.
  intros HC. induction blocks as [|b blocks IH]; intros acc HS; [cbn; ring|]. cbn [map fold_left]. rewrite IH by (intros k Hk; apply HS; now right). unfold deviation. cbn [fold_right]. fold (deviation f (g rho) blocks).
  unfold meanOf. rewrite (HS b) by now left. rewrite (zsum_csum f) by (destruct HC as [E|[E|[E|[]]]]; injection E as <- <-; cbn; auto).
  destruct HC as [E|[E|[E|[]]]]; injection E as <- <-; cbn [rx ry rz rzip rmap rofZ]; ring.
Qed.
Lemma deviation_nonneg f m blocks : (0 <= deviation f m blocks)%R.
Proof. induction blocks as [|b bs IH]; cbn; [apply Rle_refl|]. apply Rplus_le_le_0_compat; [|exact IH]. rewrite Rmult_1_r. apply Rle_0_sqr. Qed.

Lemma blSigma_few size count buffer blocks : zlen blocks <= 1 -> blSigma size count buffer blocks = (rminus1, rminus1).
Proof. intros Hl. unfold blSigma. destruct (1 <? zlen blocks) eqn:E; [lia|]. destruct (negb (count =? 0)); reflexivity. Qed.
Lemma blSigma_many size values blocks rest f g : In (f, g) components -> cutIn size values blocks rest -> 2 <= zlen blocks ->
  let sd := blSigma size (zlen values) (csum values) (map csum blocks) in
  let k := IZR (zlen blocks) in
  (0 <= g (fst sd) /\ g (fst sd) ^ 2 * (k * (k - 1)) = deviation f (meanOf f values) blocks /\ 0 <= g (snd sd) /\ g (snd sd) ^ 2 * (2 * k - 2) = g (fst sd) ^ 2)%R.
Proof.
  intros HC (EV & HS & HR & H0) HB sd k. subst sd. unfold blSigma. rewrite zlen_map. destruct (1 <? zlen blocks) eqn:E; [|lia].
  assert (SP : 0 < size) by (destruct (Z_lt_dec 0 size); [assumption|]; rewrite H0 in HB by lia; cbn in HB; lia).
  assert (VN : 0 < zlen values).
  { rewrite EV, zlen_app. pose proof (zlen_nonneg rest). destruct blocks as [|b bs]; [cbn in HB; lia|]. cbn [concat]. rewrite zlen_app, (HS b) by now left. pose proof (zlen_nonneg (concat bs)). lia. }
  replace (zlen values =? 0) with false by lia. cbn [negb fst snd].
  set (rho := rmap (fun v => v / IZR (zlen values))%R (rofZ (csum values))).
  assert (ER : g rho = meanOf f values).
  { unfold rho, meanOf. rewrite (zsum_csum f) by (destruct HC as [X|[X|[X|[]]]]; injection X as <- <-; cbn; auto). destruct HC as [X|[X|[X|[]]]]; injection X as <- <-; reflexivity. }
  set (bs := fold_left _ _ _).
  assert (EB : g bs = deviation f (meanOf f values) blocks).
  { unfold bs. rewrite (sum_component f g size rho HC blocks _ HS), ER. destruct HC as [X|[X|[X|[]]]]; injection X as <- <-; cbn; ring. }
  assert (K2 : (2 <= k)%R) by (unfold k; apply IZR_le; lia).
  assert (K1 : (0 < k - 1)%R) by lra. assert (K0 : (0 < k)%R) by lra.
  assert (DN : (0 <= deviation f (meanOf f values) blocks / k / (k - 1))%R).
  { apply Rmult_le_pos; [apply Rmult_le_pos|]; [apply deviation_nonneg| |]; left; now apply Rinv_0_lt_compat. }
  set (std := rmap (fun v => sqrt (v / (IZR (zlen blocks) - 1)))%R (rmap (fun v => v / IZR (zlen blocks))%R bs)).
  assert (ES : g std = sqrt (deviation f (meanOf f values) blocks / k / (k - 1))).
  { rewrite <- EB. unfold std, k. destruct HC as [X|[X|[X|[]]]]; injection X as <- <-; reflexivity. }
  assert (EE : g (rmap (fun v => v / sqrt (IZR (2 * zlen blocks) - 2))%R std) = (g std / sqrt (2 * k - 2))%R).
  { rewrite mult_IZR. unfold k. destruct HC as [X|[X|[X|[]]]]; injection X as <- <-; reflexivity. }
  assert (SQ : (g std ^ 2 = deviation f (meanOf f values) blocks / k / (k - 1))%R) by (rewrite ES; cbn; rewrite Rmult_1_r; now apply sqrt_sqrt).
  assert (S2 : (0 < sqrt (2 * k - 2))%R) by (apply sqrt_lt_R0; lra).
  split; [rewrite ES; apply sqrt_pos|]. split; [rewrite SQ; field; lra|]. rewrite EE. split.
  - apply Rmult_le_pos; [rewrite ES; apply sqrt_pos|left; now apply Rinv_0_lt_compat].
  - unfold Rdiv. rewrite Rpow_mult_distr. replace (2 * k - 2)%R with (sqrt (2 * k - 2) ^ 2)%R at 2 by (cbn; rewrite Rmult_1_r; apply sqrt_sqrt; lra). field. lra.
Qed.
Lemma blValues_ok bl counts buffer : zlen counts = zlen (bl_blocks bl) -> zlen buffer = zlen (bl_blocks bl) ->
  exists data, blValues bl counts buffer = Some data /\ zlen data = zlen counts /\
    forall b c s bs, zget counts b = Some c -> zget buffer b = Some s -> zget (bl_blocks bl) b = Some bs -> zget data b = Some (blSigma (bl_size bl) c s bs).
Proof.
  intros L1 L2. unfold blValues.
  assert (HB : forall m : nat, Z.of_nat m <= zlen (bl_blocks bl) -> exists data, ofold (fun data i => count <- zget counts i ;; b <- zget buffer i ;; bs <- zget (bl_blocks bl) i ;; zset data i (blSigma (bl_size bl) count b bs))
        (zrange 0 (Z.of_nat m - 1)) (repeat (mkRC3 0 0 0, mkRC3 0 0 0) (length counts)) = Some data /\ zlen data = zlen counts /\
        forall b c s bs, b < Z.of_nat m -> zget counts b = Some c -> zget buffer b = Some s -> zget (bl_blocks bl) b = Some bs -> zget data b = Some (blSigma (bl_size bl) c s bs)).
  { induction m as [|m IH]; intros Hm.
    - eexists. split; [reflexivity|]. split; [rewrite zlen_repeat; reflexivity|]. intros b c s bs Hb Hc. apply zget_range in Hc. lia.
    - destruct IH as (data & E & L & G); [lia|]. rewrite zrange_snoc by lia. replace (Z.of_nat (S m) - 1 - 1) with (Z.of_nat m - 1) by lia. replace (Z.of_nat (S m) - 1) with (Z.of_nat m) by lia. rewrite ofold_app, E. cbn [Base.obind ofold].
      destruct (zget_lt counts (Z.of_nat m)) as (c & Ec); [lia|]. destruct (zget_lt buffer (Z.of_nat m)) as (s & Es); [lia|]. destruct (zget_lt (bl_blocks bl) (Z.of_nat m)) as (bs & Eb); [lia|].
      rewrite Ec. cbn [Base.obind]. rewrite Es. cbn [Base.obind]. rewrite Eb. cbn [Base.obind]. destruct (zset_lt data (Z.of_nat m) (blSigma (bl_size bl) c s bs)) as (data' & Ed); [lia|]. rewrite Ed. cbn [Base.obind].
      exists data'. split; [reflexivity|]. split; [rewrite (zset_len _ _ _ _ Ed); exact L|]. intros b c' s' bs' Hb H1 H2 H3. rewrite (zset_get _ _ _ _ b Ed). destruct (b =? Z.of_nat m) eqn:EM.
      + apply Z.eqb_eq in EM. subst b. rewrite Ec in H1. rewrite Es in H2. rewrite Eb in H3. injection H1 as <-. injection H2 as <-. injection H3 as <-. reflexivity.
      + apply G; auto. lia. }
  pose proof (zlen_nonneg (bl_blocks bl)) as HN. destruct (HB (Z.to_nat (zlen (bl_blocks bl))) ltac:(lia)) as (data & E & L & G). replace (Z.of_nat (Z.to_nat (zlen (bl_blocks bl))) - 1) with (zlen (bl_blocks bl) - 1) in E by lia.
  exists data. split; [exact E|]. split; [exact L|]. intros b c s bs H1 H2 H3. apply G; auto. apply zget_range in H3. lia.
Qed.

(** ** OnTheFlyMSD.finalize *)
Lemma zsum_directions f : In f directions -> forall l, zsum (map f l) = f (csum l).
Proof.
  intros Hf l. induction l as [|c l IH]; [cbn in Hf; intuition (subst; reflexivity)|]. cbn [map]. rewrite zsum_cons, IH. cbn in Hf.
  destruct Hf as [<-|[<-|[<-|[<-|[<-|[<-|[<-|[]]]]]]]]; unfold csum; cbn [fold_right cadd cx cy cz]; ring.
Qed.
Lemma combine_zget {A B} (l : list A) (m : list B) i a b : zget l i = Some a -> zget m i = Some b -> zget (combine l m) i = Some (a, b).
Proof.
  revert m i. induction l as [|x l IH]; intros m i Ha Hb; [rewrite zget_nil in Ha; discriminate|]. destruct m as [|y m]; [rewrite zget_nil in Hb; discriminate|].
  cbn [combine]. rewrite zget_cons in Ha. rewrite zget_cons in Hb. rewrite zget_cons. destruct (i =? 0); [congruence|]. auto.
Qed.
Lemma zlen_combine {A B} (l : list A) (m : list B) : zlen l = zlen m -> zlen (combine l m) = zlen l.
Proof. unfold zlen. rewrite combine_length. lia. Qed.

(** the weighted sum accumulated for bin b *)
Definition weighted (rows : list (list Z)) (b m : Z) : Z := zsum (map (fun k => (k + 1) * match zget rows k with Some row => match zget row b with Some v => v | None => 0 end | None => 0 end) (zrange 0 (m - 1))).
Lemma weighted_S rows b m row v : 0 <= m -> zget rows m = Some row -> zget row b = Some v -> weighted rows b (m + 1) = weighted rows b m + (m + 1) * v.
Proof. intros Hm Er Ev. unfold weighted. rewrite zrange_snoc by lia. replace (m + 1 - 1) with m by lia. rewrite map_app, zsum_app. cbn [map]. rewrite Er, Ev. cbn. lia. Qed.
Definition neffIs (bins : list Z) (w : Z -> Z) (l : list Q) : Prop :=
  zlen l = zlen bins /\ forall b n, zget bins b = Some n -> exists q, zget l b = Some q /\ (q * inject_Z n == inject_Z (w b))%Q /\ (n = 0 -> (q == 0)%Q).
Lemma neff_row bins row k (w : Z -> Z) : 0 <= k -> zlen row = zlen bins -> (forall b n, zget bins b = Some n -> 0 <= n) -> (forall b n v, zget bins b = Some n -> zget row b = Some v -> n = 0 -> v = 0) ->
  forall neff, neffIs bins w neff ->
  exists neff', ofold (fun neff i => hc <- zget row i ;; bc <- zget bins i ;; if negb (hc =? 0) && negb (bc =? 0) then v <- zget neff i ;; zset neff i (v + inject_Z hc / inject_Z bc * (inject_Z k + 1))%Q else Some neff)
                 (zrange 0 (zlen neff - 1)) neff = Some neff' /\
    neffIs bins (fun b => w b + (k + 1) * match zget row b with Some v => v | None => 0 end) neff'.
Proof.
  intros Hk LR HN HZ neff [LN HI]. pose proof (zlen_nonneg bins) as HB.
  assert (G : forall m : nat, Z.of_nat m <= zlen bins -> exists neff', ofold (fun neff i => hc <- zget row i ;; bc <- zget bins i ;; if negb (hc =? 0) && negb (bc =? 0) then v <- zget neff i ;; zset neff i (v + inject_Z hc / inject_Z bc * (inject_Z k + 1))%Q else Some neff)
                 (zrange 0 (Z.of_nat m - 1)) neff = Some neff' /\
       neffIs bins (fun b => w b + if b <? Z.of_nat m then (k + 1) * match zget row b with Some v => v | None => 0 end else 0) neff').
  { induction m as [|m IH]; intros Hm.
    - exists neff. split; [reflexivity|]. split; [exact LN|]. intros b n Hb. destruct (HI b n Hb) as (q & E1 & E2 & E3). exists q. split; [exact E1|]. split; [|exact E3]. pose proof (zget_range _ _ _ Hb). replace (b <? Z.of_nat 0) with false by lia. rewrite Z.add_0_r. exact E2.
    - destruct IH as (n1 & E & L1 & I1); [lia|]. rewrite zrange_snoc by lia. replace (Z.of_nat (S m) - 1 - 1) with (Z.of_nat m - 1) by lia. replace (Z.of_nat (S m) - 1) with (Z.of_nat m) by lia. rewrite ofold_app, E. cbn [Base.obind ofold].
      destruct (zget_lt row (Z.of_nat m)) as (hc & Eh); [lia|]. destruct (zget_lt bins (Z.of_nat m)) as (bc & Eb); [lia|]. rewrite Eh. cbn [Base.obind]. rewrite Eb. cbn [Base.obind].
      destruct (I1 _ _ Eb) as (q & Q1 & Q2 & Q3). replace (Z.of_nat m <? Z.of_nat m) with false in Q2 by lia. rewrite Z.add_0_r in Q2.
      assert (KEEP : forall b n, zget bins b = Some n -> b <> Z.of_nat m -> exists q, zget n1 b = Some q /\ (q * inject_Z n == inject_Z (w b + (if b <? Z.of_nat (S m) then (k + 1) * match zget row b with Some v => v | None => 0 end else 0)))%Q /\ (n = 0 -> (q == 0)%Q)).
      { intros b n Hb NE. destruct (I1 b n Hb) as (q' & A & B & C). exists q'. split; [exact A|]. split; [|exact C]. replace (b <? Z.of_nat (S m)) with (b <? Z.of_nat m) by lia. exact B. }
      destruct (negb (hc =? 0) && negb (bc =? 0)) eqn:EC.
      + rewrite Q1. cbn [Base.obind]. destruct (zset_lt n1 (Z.of_nat m) (q + inject_Z hc / inject_Z bc * (inject_Z k + 1))%Q) as (n2 & E2); [lia|]. rewrite E2. cbn [Base.obind]. exists n2. split; [reflexivity|]. split; [rewrite (zset_len _ _ _ _ E2); exact L1|].
        intros b n Hb. rewrite (zset_get _ _ _ _ b E2). destruct (b =? Z.of_nat m) eqn:EM; [|apply KEEP; [exact Hb|lia]]. apply Z.eqb_eq in EM. subst b. rewrite Eb in Hb. injection Hb as <-. eexists. split; [reflexivity|]. split.
        * rewrite Eh. replace (Z.of_nat m <? Z.of_nat (S m)) with true by lia. rewrite inject_Z_plus, <- Q2, inject_Z_mult, inject_Z_plus. assert (NZ : ~ (inject_Z bc == 0)%Q) by (intros X; unfold Qeq in X; cbn in X; lia). field. exact NZ.
        * lia.
      + cbn [Base.obind]. exists n1. split; [reflexivity|]. split; [exact L1|]. intros b n Hb. destruct (Z.eq_dec b (Z.of_nat m)) as [->|NE]; [|now apply KEEP]. rewrite Eb in Hb. injection Hb as <-. exists q. split; [exact Q1|]. split; [|exact Q3].
        rewrite Eh. replace (Z.of_nat m <? Z.of_nat (S m)) with true by lia. assert (hc = 0) by (destruct (Z.eq_dec hc 0); [assumption|]; apply (HZ _ _ _ Eb Eh); lia). subst hc. rewrite Z.mul_0_r, Z.add_0_r. exact Q2. }
  destruct (G (Z.to_nat (zlen bins)) ltac:(lia)) as (n' & E & L' & I'). replace (Z.of_nat (Z.to_nat (zlen bins)) - 1) with (zlen neff - 1) in E by lia. exists n'. split; [exact E|]. split; [exact L'|].
  intros b n Hb. destruct (I' b n Hb) as (q & Q1 & Q2 & Q3). exists q. split; [exact Q1|]. split; [|exact Q3]. pose proof (zget_range _ _ _ Hb). replace (b <? Z.of_nat (Z.to_nat (zlen bins))) with true in Q2 by lia. exact Q2.
Qed.
Lemma neff_all ms : (forall k row, zget (ms_hbins ms) k = Some row -> zlen row = zlen (ms_bins ms)) -> (forall b n, zget (ms_bins ms) b = Some n -> 0 <= n) ->
  (forall k row b n v, zget (ms_hbins ms) k = Some row -> zget (ms_bins ms) b = Some n -> zget row b = Some v -> n = 0 -> v = 0) ->
  exists neff, msNeff ms = Some neff /\ neffIs (ms_bins ms) (fun b => weighted (ms_hbins ms) b (zlen (ms_hbins ms))) neff.
Proof.
  intros HL HN HZ. unfold msNeff.
  assert (G : forall m : nat, Z.of_nat m <= zlen (ms_hbins ms) -> exists neff, ofold (fun neff b => row <- zget (ms_hbins ms) b ;; ofold (fun neff i => hc <- zget row i ;; bc <- zget (ms_bins ms) i ;; if negb (hc =? 0) && negb (bc =? 0) then v <- zget neff i ;; zset neff i (v + inject_Z hc / inject_Z bc * (inject_Z b + 1))%Q else Some neff) (zrange 0 (zlen neff - 1)) neff)
      (zrange 0 (Z.of_nat m - 1)) (repeat 0%Q (length (ms_bins ms))) = Some neff /\ neffIs (ms_bins ms) (fun b => weighted (ms_hbins ms) b (Z.of_nat m)) neff).
  { induction m as [|m IH]; intros Hm.
    - eexists. split; [reflexivity|]. split; [now rewrite zlen_repeat|]. intros b n Hb. exists 0%Q. split; [apply zget_repeat; apply (zget_range _ _ _ Hb)|]. split; [|reflexivity]. cbn. ring.
    - destruct IH as (n1 & E & I1); [lia|]. rewrite zrange_snoc by lia. replace (Z.of_nat (S m) - 1 - 1) with (Z.of_nat m - 1) by lia. replace (Z.of_nat (S m) - 1) with (Z.of_nat m) by lia. rewrite ofold_app, E. cbn [Base.obind ofold].
      destruct (zget_lt (ms_hbins ms) (Z.of_nat m)) as (row & Er); [lia|]. rewrite Er. cbn [Base.obind].
      destruct (neff_row (ms_bins ms) row (Z.of_nat m) _ ltac:(lia) (HL _ _ Er) HN (fun b n v => HZ _ row b n v Er) _ I1) as (n2 & E2 & L2 & I2). rewrite E2. cbn [Base.obind]. exists n2. split; [reflexivity|]. split; [exact L2|].
      intros b n Hb. destruct (I2 b n Hb) as (q & Q1 & Q2 & Q3). exists q. split; [exact Q1|]. split; [|exact Q3]. pose proof (zget_range _ _ _ Hb) as HR. rewrite <- (HL _ _ Er) in HR. destruct (zget_lt row b HR) as (v & Ev). rewrite Ev in Q2.
      replace (Z.of_nat (S m)) with (Z.of_nat m + 1) by lia. rewrite (weighted_S _ _ _ _ _ (Zle_0_nat m) Er Ev). exact Q2. }
  pose proof (zlen_nonneg (ms_hbins ms)) as HP. assert (EZ : Z.of_nat (Z.to_nat (zlen (ms_hbins ms))) = zlen (ms_hbins ms)) by now apply Z2Nat.id. destruct (G (Z.to_nat (zlen (ms_hbins ms)))) as (neff & E & I); [rewrite EZ; apply Z.le_refl|]. rewrite EZ in *. eauto.
Qed.

(** the sum of the lags is the sum over the lags of their counts *)
Lemma lags_sum (f : comparison -> bool) m l : 0 <= m -> (forall c, In c l -> 1 <= lag c <= m) ->
  zsum (map lag (filter f l)) = zsum (map (fun k => (k + 1) * tally (fun c => (lag c =? k + 1) && f c) l) (zrange 0 (m - 1))).
Proof.
  intros Hm. induction l as [|c l IH]; intros HL.
  - cbn. clear. induction (zrange 0 (m - 1)) as [|k ks IHk]; [reflexivity|]. cbn [map]. rewrite zsum_cons, <- IHk. lia.
  - assert (HC : 1 <= lag c <= m) by (apply HL; now left). specialize (IH (fun x Hx => HL x (or_intror Hx))).
    assert (EQ : map (fun k => (k + 1) * tally (fun c => (lag c =? k + 1) && f c) (c :: l)) (zrange 0 (m - 1)) = map (fun k => (k + 1) * (if (lag c =? k + 1) && f c then 1 else 0) + (k + 1) * tally (fun c => (lag c =? k + 1) && f c) l) (zrange 0 (m - 1))).
    { apply map_ext. intros k. rewrite tally_cons. lia. }
    rewrite EQ, zsum_map_add, <- IH. cbn [filter]. destruct (f c).
    + cbn [map]. rewrite zsum_cons. f_equal. assert (ES : zrange 0 (m - 1) = zrange 0 (lag c - 2) ++ (lag c - 1) :: zrange (lag c) (m - 1)).
      { unfold zrange. replace (Z.to_nat (m - 1 - 0 + 1)) with (Z.to_nat (lag c - 2 - 0 + 1) + S (Z.to_nat (m - 1 - lag c + 1)))%nat by lia. rewrite zseq_app. f_equal. cbn [zseq]. f_equal; [lia|]. f_equal. lia. }
      rewrite ES, map_app, zsum_app. cbn [map]. rewrite zsum_cons. replace (lag c =? lag c - 1 + 1) with true by lia. cbn [andb].
      assert (Z1 : forall ks, (forall k, In k ks -> k <> lag c - 1) -> zsum (map (fun k => (k + 1) * (if (lag c =? k + 1) && true then 1 else 0)) ks) = 0).
      { intros ks. induction ks as [|k ks IHk]; intros HK; [reflexivity|]. cbn [map]. rewrite zsum_cons, IHk by (intros; apply HK; now right). specialize (HK k (or_introl eq_refl)). replace (lag c =? k + 1) with false by lia. cbn. lia. }
      rewrite !Z1; [lia| |]; intros k Hk; apply In_zrange in Hk; lia.
    + replace (zsum (map _ (zrange 0 (m - 1)))) with 0; [lia|]. symmetry. induction (zrange 0 (m - 1)) as [|k ks IHk]; [reflexivity|]. cbn [map]. rewrite zsum_cons. rewrite Bool.andb_false_r. rewrite Z.mul_0_r. cbn.
      clear - ks. induction ks as [|k ks IHk]; [reflexivity|]. cbn [map]. rewrite zsum_cons, IHk, Bool.andb_false_r. lia.
Qed.
Lemma compared_lags reach l c : In c (compared reach l) -> 1 <= lag c <= reach.
Proof.
  unfold compared. rewrite in_flat_map. intros (k & _ & Hc). apply in_flat_map in Hc. destruct Hc as (d & Hd & Hc). apply In_zrange in Hd. destruct (zget l k), (zget l (k - d)); cbn in Hc; try easy. destruct Hc as [<-|[]]. exact Hd.
Qed.
Lemma firstAbove_spec limit : forall l i, let r := firstAbove limit i l in i <= r <= i + zlen l /\ (forall j v, i <= j < r -> zget l (j - i) = Some v -> (inject_Z v <= limit)%Q) /\ (forall v, zget l (r - i) = Some v -> (limit < inject_Z v)%Q).
Proof.
  induction l as [|c l IH]; intros i; cbn [firstAbove].
  - cbv zeta. split; [rewrite zlen_nil; lia|]. split; [lia|]. intros v. rewrite zget_nil. discriminate.
  - destruct (Qle_bool (inject_Z c) limit) eqn:E; cbn [negb].
    + destruct (IH (i + 1)) as (R1 & R2 & R3). cbv zeta. rewrite zlen_cons. split; [lia|]. split.
      * intros j v Hj. rewrite zget_cons. destruct (j - i =? 0) eqn:E0; [intros X; injection X as <-; now apply Qle_bool_iff|]. replace (j - i - 1) with (j - (i + 1)) by lia. apply R2. lia.
      * intros v. rewrite zget_cons. replace (firstAbove limit (i + 1) l - i =? 0) with false by lia. replace (firstAbove limit (i + 1) l - i - 1) with (firstAbove limit (i + 1) l - (i + 1)) by lia. apply R3.
    + cbv zeta. rewrite zlen_cons. pose proof (zlen_nonneg l). split; [lia|]. split; [lia|]. intros v. rewrite Z.sub_diag, zget_0. intros X. injection X as <-. apply Qnot_le_lt. intros X. apply Qle_bool_iff in X. congruence.
Qed.
Lemma fold_max_spec l : forall c, c <= fold_left Z.max l c /\ (forall v, In v l -> v <= fold_left Z.max l c) /\ In (fold_left Z.max l c) (c :: l).
Proof.
  induction l as [|a l IH]; intros c; cbn [fold_left]; [split; [lia|]; split; [intros v []|now left]|]. destruct (IH (Z.max c a)) as (A & B & C). split; [lia|]. split.
  - intros v [<-|Hv]; [lia|auto].
  - destruct C as [C|C]; [|right; now right]. rewrite <- C. destruct (Z.max_spec c a) as [[_ ->]|[_ ->]]; [right; now left|now left].
Qed.
