(** C34-C38: what the analysis objects report. *)
From Verif Require Import PBase MAnalysis SAnalysis PAnalysis.
From Verif Require Import SModel SStep SBucket XCheck XSystems XRows PRun PStepInv TStep.
Local Strategy expand [xcCheck].
Open Scope string_scope.
Open Scope list_scope.
Open Scope Z_scope.

(** ** C34 *)
(** [start] is the observation at setup, [steps] those of the registered steps; n is the number of types.  All blocks but the last are reported. *)
Theorem C34_block_averages interval n start steps :
  0 <= interval -> 0 <= n -> (forall s, In s (start :: steps) -> zlen (snd s) = n) ->
  exists co blocks, coRun interval n start steps = Ok co /\ inBlocks interval (start :: steps) blocks /\ zlen (co_data co) = zlen blocks - 1 /\
    forall i b d, zget blocks i = Some b -> zget (co_data co) i = Some d ->
      zlen d = n /\ forall j q, zget d j = Some q -> isMean (column j b) q.
Proof.
  intros Hi Hn HL.
  destruct (coSteps_blocks n Hn steps [start] (fst start) _ (coSetup_inv interval n start Hn (HL _ (or_introl eq_refl))) (fun s Hs => HL s (or_intror Hs))) as (co & ds & E & _ & ED & F).
  exists co, (cutBlocks interval [start] (fst start) steps). split; [exact E|]. cbn in ED, F. subst ds.
  split; [apply (cutBlocks_ok interval Hi steps [start] (fst start) (startsAt_one start)); intros x [<-|[]]; lia|].
  set (bs := cutBlocks interval [start] (fst start) steps) in *.
  assert (HB : bs <> []) by (unfold bs; destruct (cutBlocks_first interval steps _ _ (startsAt_one start)) as (b & r & -> & _); discriminate).
  assert (EL : bs = removelast bs ++ [last bs []]) by now apply app_removelast_last.
  assert (LL : zlen (removelast bs) = zlen (co_data co)) by exact (Forall2_zlen _ _ _ F).
  split; [rewrite EL, zlen_app; cbn; lia|].
  intros i b d Hb Hd. rewrite EL in Hb. rewrite zget_app_l in Hb by (apply zget_range in Hd; lia).
  exact (Forall2_zget _ _ _ F _ _ _ Hb Hd).
Qed.
(** The blocks are determined by the history. *)
Theorem C34_blocks_unique {A} interval (history : list (Z * A)) blocks blocks' :
  inBlocks interval history blocks -> inBlocks interval history blocks' -> blocks = blocks'.
Proof. apply inBlocks_unique. Qed.
(** In a simulation the observations are the true numbers of particles: those of the names found at the sites. *)
Theorem C34_true_counts ranks hash L cf it spec md us mds t0 times :
  userInput ranks L cf it spec -> reachable ranks hash L cf it md -> runStates md us = Some mds ->
  exists obs, Forall2 (fun m o => particlesPerType (md_cf m) = Some o) (md :: mds) obs /\
    (forall o, In o obs -> zlen o = zlen (cf_ptypes cf)) /\
    (forall k m o s j, zget (md :: mds) k = Some m -> zget obs k = Some o -> nonNegative (md_cf m) -> tfind (cf_ptypes cf) s = Some j -> zget o j = Some (nameCount s (cf_elements (md_cf m)))) /\
    (length times = length mds -> forall interval start steps, 0 <= interval -> combine (t0 :: times) obs = start :: steps ->
     exists co, coRun interval (zlen (cf_ptypes cf)) start steps = Ok co).
Proof.
  intros UI HR HS.
  assert (HALL : forall m, In m (md :: mds) -> reachable ranks hash L cf it m).
  { revert md mds HR HS. induction us as [|(u1, u2) us IH]; intros md mds HR HS; cbn in HS.
    - injection HS as <-. intros m [<-|[]]. exact HR.
    - ob HS as md1 E1. ob HS as l E2. injection HS as <-. intros m [<-|Hm]; [exact HR|].
      apply (IH md1 l); [|exact E2|exact Hm]. destruct HR as (md0 & vs & H0 & HV). exists md0, (vs ++ [(u1, u2)]). split; [exact H0|].
      unfold runSteps in *. rewrite ofold_app, HV. cbn. rewrite E1. reflexivity. }
  assert (HO : exists obs, Forall2 (fun m o => particlesPerType (md_cf m) = Some o /\ zlen o = zlen (cf_ptypes cf)) (md :: mds) obs).
  { clear HS. revert HALL. generalize (md :: mds). clear - UI. intros l. induction l as [|m l IH]; intros H; [now exists []|].
    destruct (C18_counts ranks hash L cf it spec m UI (H m (or_introl eq_refl))) as (ns & E & EL & _). destruct (IH (fun x Hx => H x (or_intror Hx))) as (obs & F).
    exists (ns :: obs). now constructor. }
  destruct HO as (obs & F). exists obs.
  assert (HLEN : forall o, In o obs -> zlen o = zlen (cf_ptypes cf)).
  { clear - F. induction F as [|m o l obs' H F IH]; intros x Hx; [destruct Hx|]. destruct Hx as [<-|Hx]; [apply H|auto]. }
  split; [|split; [exact HLEN|split]].
  - clear - F. induction F; constructor; [tauto|assumption].
  - intros k m o s j Hm Ho NN Hs.
    assert (EO : particlesPerType (md_cf m) = Some o).
    { exact (proj1 (Forall2_zget _ _ _ F _ _ _ Hm Ho)). }
    destruct (C18_counts ranks hash L cf it spec m UI (HALL _ (zget_In _ _ _ Hm))) as (ns & E & _ & _ & HN). rewrite EO in E. injection E as <-. now apply HN.
  - intros HT interval start steps Hi EC.
    destruct (C34_block_averages interval (zlen (cf_ptypes cf)) start steps Hi (zlen_nonneg _)) as (co & _ & E & _); [|now exists co].
    intros s Hs. rewrite <- EC in Hs. apply HLEN. destruct s as [t o]. now apply in_combine_r in Hs.
Qed.
(** two types; the third step comes 12 after the start, the fifth 11 after that; two blocks are reported *)
Example C34_example : exists co, coRun 10 2 (0, [3; 1]) [(4, [2; 2]); (12, [1; 3]); (13, [2; 2]); (23, [3; 1])] = Ok co /\ zlen (co_data co) = 2.
Proof. eexists. split; [vm_compute; reflexivity|vm_compute; reflexivity]. Qed.
Lemma runStates_one md u1 u2 md' : singleStep md u1 u2 = Some md' -> runStates md [(u1, u2)] = Some [md'].
Proof. intros H. cbn [runStates]. rewrite H. reflexivity. Qed.
Example C34_true_counts_example : exists ranks hash L cf it spec md us mds,
  userInput ranks L cf it spec /\ reachable ranks hash L cf it md /\ runStates md us = Some mds /\ mds <> [] /\ nonNegative (md_cf md).
Proof.
  assert (E : xcCheck (fun cf it md md' => forallb (fun t => forallb (fun n => 0 <=? n) t) (cf_types (md_cf md))) = true) by (vm_compute; reflexivity).
  unfold xcCheck in E. apply userCheck_sound in E. destruct E as (cf & it & md & md' & US & E).
  exists 3, xhash, x2L, cf, it, (specOf xcSpecs), md. eexists [(_, _)], [md'].
  split; [inputOf US|]. split; [reached US|]. split; [|split; [discriminate|]].
  - apply runStates_one. exact (us_step _ _ _ _ _ _ _ _ _ _ _ _ _ _ _ _ _ US).
  - intros y t k m Et Em; rewrite forallb_forall in E; specialize (E t (zget_In _ _ _ Et)); rewrite forallb_forall in E; apply Z.leb_le, E; eapply zget_In; eauto.
Qed.

(** ** C35 *)
Lemma block_start {A} interval (history : list (Z * A)) blocks t0 : inBlocks interval history blocks -> (exists b, zget blocks 0 = Some b /\ startsAt b t0) ->
  forall i b t, zget blocks i = Some b -> startsAt b t -> t0 + i * interval <= t.
Proof.
  intros (_ & I1 & I2) (b0 & E0 & S0) i b t Hb Ht. assert (Hi := zget_range _ _ _ Hb).
  revert b t Hb Ht. replace i with (Z.of_nat (Z.to_nat i)) in * by lia. set (k := Z.to_nat i) in *. clearbody k. clear i.
  induction k as [|k IH]; intros b t Hb Ht.
  - change (Z.of_nat 0) with 0 in *. rewrite E0 in Hb. injection Hb as <-. rewrite (startsAt_fun _ _ _ Ht S0). lia.
  - rewrite Nat2Z.inj_succ, <- Z.add_1_r in Hb. destruct (zget_lt blocks (Z.of_nat k)) as (c & Hc); [apply zget_range in Hb; lia|].
    destruct (I1 _ _ Hc) as (s & Hs & _). assert (H := IH ltac:(apply zget_range in Hc; lia) c s Hc Hs). assert (N := I2 _ _ _ _ _ Hc Hb Hs Ht). lia.
Qed.
Lemma coTimes_get co i q : zget (coTimes co) i = Some q -> 0 <= i < zlen (co_data co) /\ (q == inject_Z i * inject_Z (co_interval co) + inject_Z (co_interval co) / 2)%Q.
Proof.
  unfold coTimes. rewrite zget_map. intros H. destruct (zget (zrange 0 (zlen (co_data co) - 1)) i) eqn:E; [|discriminate].
  assert (R := zget_range _ _ _ E). rewrite zlen_zrange in R. rewrite zget_zrange in E by lia. injection E as <-. cbn in H. injection H as <-.
  split; [lia|]. reflexivity.
Qed.
Lemma coSteps_interval steps : forall co co', coSteps co steps = Ok co' -> co_interval co' = co_interval co.
Proof.
  induction steps as [|s steps IH]; intros co co' H; cbn [coSteps] in H; [now injection H as <-|].
  destruct (coRegister co (fst s) (snd s)) as [co1|e] eqn:E; [|discriminate]. rewrite (IH _ _ H). unfold coRegister in E.
  destruct (co_interval co <? fst s - co_last co); cbn [co_count] in E;
    match type of E with match ?x with _ => _ end = _ => destruct x; [|discriminate] end; now injection E as <-.
Qed.
(** The full claim: the time reported for a block lies between its start and the start of the next one. *)
Definition reportedInBlock (co : composition) (blocks : list (list (Z * list Z))) : Prop :=
  forall i b b' t t' q, zget blocks i = Some b -> zget blocks (i + 1) = Some b' -> startsAt b t -> startsAt b' t' -> zget (coTimes co) i = Some q ->
    (inject_Z t <= q)%Q /\ (q <= inject_Z t')%Q.
(** It is false: each block starts with the first step after the interval has passed, the excess is forgotten.  Here the interval is 10 and the
    steps are 3 apart: the blocks start at 0, 12, 24, 36, 48 and the fourth one is reported at 35. *)
Theorem C35_in_block_refuted : exists interval n start steps co blocks,
  0 < interval /\ fst start = 0 /\ coRun interval n start steps = Ok co /\ inBlocks interval (start :: steps) blocks /\ ~ reportedInBlock co blocks.
Proof.
  set (steps := map (fun i => (3 * i, [1])) (zrange 1 16)).
  destruct (C34_block_averages 10 1 (0, [1]) steps) as (co & blocks & E & IB & EL & _); [lia|lia| |].
  { intros s [<-|Hs]; [reflexivity|]. unfold steps in Hs. apply in_map_iff in Hs. destruct Hs as (i & <- & _). reflexivity. }
  exists 10, 1, (0, [1]), steps, co, blocks. split; [lia|]. split; [reflexivity|]. split; [exact E|]. split; [exact IB|]. intros H.
  assert (EB : blocks = cutBlocks 10 [(0, [1])] 0 steps).
  { apply (C34_blocks_unique 10 ((0, [1]) :: steps)); [exact IB|]. apply (cutBlocks_ok 10 ltac:(lia) steps [(0, [1])] 0 (startsAt_one (0, [1]))). intros x [<-|[]]. cbn. lia. }
  assert (EC : exists co', coRun 10 1 (0, [1]) steps = Ok co' /\ zget (coTimes co') 3 = Some (inject_Z 3 * inject_Z 10 + inject_Z 10 / inject_Z 2)%Q).
  { eexists. split; [vm_compute; reflexivity|vm_compute; reflexivity]. }
  destruct EC as (co' & E' & ET). rewrite E in E'. injection E' as <-.
  destruct (H 3 [(36, [1]); (39, [1]); (42, [1]); (45, [1])] [(48, [1])] 36 48 _ ltac:(rewrite EB; vm_compute; reflexivity) ltac:(rewrite EB; vm_compute; reflexivity)
    ltac:(eexists _, _; reflexivity) ltac:(eexists _, _; reflexivity) ET) as (H1 & _).
  revert H1. vm_compute. intros H1. now apply H1.
Qed.
(** What holds: no block is reported later than its end, and a block is reported within its interval as long as the accumulated excess is at most half
    an interval.  Missing: the excess has no bound. *)
Theorem C35_in_block_partial interval n start steps co blocks i b b' t t' q :
  0 < interval -> 0 <= fst start -> coRun interval n start steps = Ok co -> inBlocks interval (start :: steps) blocks ->
  zget blocks i = Some b -> zget blocks (i + 1) = Some b' -> startsAt b t -> startsAt b' t' -> zget (coTimes co) i = Some q ->
  (q <= inject_Z t')%Q /\ (2 * (t - i * interval) <= interval -> (inject_Z t <= q)%Q).
Proof.
  intros Hi H0 E IB Hb Hb' Ht Ht' Hq. destruct (coTimes_get _ _ _ Hq) as (HR & EQ). rewrite (coSteps_interval _ _ _ E) in EQ. cbn in EQ. rewrite EQ.
  assert (F : exists b0, zget blocks 0 = Some b0 /\ startsAt b0 (fst start)).
  { destruct blocks as [|b0 bs]; [rewrite zget_nil in Hb; discriminate|]. exists b0. split; [reflexivity|]. destruct (inBlocks_first _ _ _ _ IB) as (u & (x & r & Eb) & _).
    destruct IB as (EC & _). rewrite Eb in EC. cbn in EC. injection EC as <- _. now exists x, r. }
  assert (B := block_start _ _ _ _ IB F _ _ _ Hb' Ht').
  split.
  - unfold Qle, Qplus, Qdiv, Qmult, inject_Z. cbn. lia.
  - intros HX. unfold Qle, Qplus, Qdiv, Qmult, inject_Z. cbn. lia.
Qed.
(** the example of C34: blocks start at 0, 12 and 23 *)
Example C35_partial_example : exists co, coRun 10 2 (0, [3; 1]) [(4, [2; 2]); (12, [1; 3]); (13, [2; 2]); (23, [3; 1])] = Ok co /\
  inBlocks 10 ((0, [3; 1]) :: [(4, [2; 2]); (12, [1; 3]); (13, [2; 2]); (23, [3; 1])]) [[(0, [3; 1]); (4, [2; 2])]; [(12, [1; 3]); (13, [2; 2])]; [(23, [3; 1])]] /\
  2 * (12 - 1 * 10) <= 10.
Proof.
  eexists. split; [vm_compute; reflexivity|]. split; [|lia].
  exact (cutBlocks_ok 10 ltac:(lia) [(4, [2; 2]); (12, [1; 3]); (13, [2; 2]); (23, [3; 1])] [(0, [3; 1])] 0 (startsAt_one (0, [3; 1])) ltac:(intros x [<-|[]]; cbn; lia)).
Qed.

(** ** C36 *)
Theorem C36_histogram size start times : 0 < size -> forwards start times ->
  exists most, forall passes, (most <= passes)%nat -> exists ts, tsRun passes size start times = Some (Ok ts) /\
    zsum (ts_hist ts) = zlen times /\
    (forall b, 0 <= b < zlen (ts_hist ts) -> zget (ts_hist ts) b = Some (tally (inBin size b) (increments start times))) /\
    (forall b, zlen (ts_hist ts) <= b -> tally (inBin size b) (increments start times) = 0).
Proof.
  intros HS HF. set (ds := increments start times). exists (Z.to_nat (zsum ds + 1)). intros passes HP.
  destruct (tsSteps_inv size passes HS times start [] (tsSetup size start) (tsSetup_inv size start) HF) as (ts & E & I).
  { fold ds. assert (HN : forall d, In d ds -> 0 <= d) by exact HF. intros d Hd.
    assert (d <= zsum ds). { clear - HN Hd. induction ds as [|a l IH]; [destruct Hd|]. rewrite zsum_cons. assert (0 <= a) by (apply HN; now left).
      assert (0 <= zsum l) by (apply zsum_nonneg; intros x Hx; apply HN; now right). destruct Hd as [->|Hd]; [lia|]. specialize (IH (fun x Hx => HN x (or_intror Hx)) Hd). lia. }
    assert (Z.quot d size <= d) by (apply Z.quot_le_upper_bound; [lia|]; specialize (HN d Hd); nia). specialize (HN d Hd). lia. }
  exists ts. split; [exact E|]. cbn [app] in I. fold ds in I. destruct I as (_ & _ & _ & ISum & IG & ID).
  split; [rewrite ISum; unfold ds; clear; revert start; induction times as [|t l IH]; intros s; [reflexivity|cbn [increments]; rewrite !zlen_cons, IH; reflexivity]|].
  split; [exact IG|]. intros b Hb. apply tally_none. intros d Hd. apply ID in Hd. unfold inBin. destruct (Z.leb_spec (b * size) d); [nia|reflexivity].
Qed.
(** The normalised histogram: the fraction of the steps in each bin; the fractions add up to 1. *)
Theorem C36_normalized ts : 0 < zsum (ts_hist ts) -> exists l, tsNormalized ts = map Some l /\
  (forall b v, zget (ts_hist ts) b = Some v -> exists q, zget l b = Some q /\ (q * inject_Z (zsum (ts_hist ts)) == inject_Z v)%Q) /\ (fold_right Qplus 0 l == 1)%Q.
Proof.
  intros H. unfold tsNormalized. destruct (Z.eqb_spec (zsum (ts_hist ts)) 0) as [|_]; [lia|].
  exists (map (fun v => (inject_Z v / inject_Z (zsum (ts_hist ts)))%Q) (ts_hist ts)). split; [now rewrite map_map|]. split.
  - intros b v Hv. exists (inject_Z v / inject_Z (zsum (ts_hist ts)))%Q. split; [rewrite zget_map, Hv; reflexivity|now apply Qdiv_mean].
  - assert (G : forall l n, 0 < n -> (fold_right Qplus 0 (map (fun v => inject_Z v / inject_Z n) l) == inject_Z (zsum l) / inject_Z n)%Q).
    { intros l n Hn. induction l as [|a l IH]; [cbn; field; intros E; unfold Qeq in E; cbn in E; lia|]. cbn [map fold_right]. rewrite IH, zsum_cons, inject_Z_plus.
      field. intros E. unfold Qeq in E. cbn in E. lia. }
    rewrite G by exact H. field. intros E. unfold Qeq in E. cbn in E. lia.
Qed.
(** steps of length 3, 0, 250 with bins of size 10: the histogram has grown to more than 25 bins *)
(** The times reported with the histogram are the centres of the bins. *)
Theorem C36_times ts b v : zget (ts_hist ts) b = Some v -> exists q, zget (tsTimes ts) b = Some q /\ zlen (tsTimes ts) = zlen (ts_hist ts) /\ (q * 2 == inject_Z ((2 * b + 1) * ts_bin ts))%Q.
Proof.
  intros Hb. pose proof (zget_range _ _ _ Hb) as HR. unfold tsTimes. rewrite zlen_map, zlen_zrange, zget_map, zget_zrange by lia. eexists. split; [reflexivity|]. split; [lia|].
  replace (0 + b) with b by lia. rewrite inject_Z_mult, inject_Z_plus, inject_Z_mult. change (inject_Z 2) with 2%Q. change (inject_Z 1) with 1%Q. field.
Qed.
Example C36_example : exists ts, tsRun 300 10 5 [8; 8; 258] = Some (Ok ts) /\ zlen (ts_hist ts) = 26 /\ zget (ts_hist ts) 0 = Some 2 /\ zget (ts_hist ts) 25 = Some 1 /\ forwards 5 [8; 8; 258].
Proof.
  eexists. split; [vm_compute; reflexivity|]. split; [vm_compute; reflexivity|]. split; [vm_compute; reflexivity|]. split; [vm_compute; reflexivity|].
  intros d Hd. cbn in Hd. lia.
Qed.
(** a bin size of zero is accepted by the constructor (MControl.v, checkPositiveFloat) and the first step raises ZeroDivisionError *)
Example C36_zero_size : tsRun 5 0 0 [1] = Some (Raise ZeroDivision).
Proof. reflexivity. Qed.

(** ** C37 *)
Theorem C37_counts procs interval spatial nsites start steps :
  0 <= interval -> 0 <= nsites -> (forall s, In s steps -> 0 <= snd (snd s) < nsites) ->
  exists ps blocks, psRun procs interval spatial nsites start steps = Ok ps /\ inBlocks interval (withStart start steps) blocks /\
    ps_data ps = map (tally (tracked procs)) (removelast blocks) /\ ps_count ps = tally (tracked procs) (last blocks []) /\
    zsum (ps_data ps) + ps_count ps = tally (tracked procs) (withStart start steps) /\
    (if spatial then exists l, ps_spatial ps = Some l /\ zlen l = nsites /\ zsum l = zsum (ps_data ps) + ps_count ps /\
       forall x v, zget l x = Some v -> v = tally (trackedAt procs x) (withStart start steps)
     else ps_spatial ps = None).
Proof.
  intros Hi HN HS.
  assert (I0 : psInv procs interval spatial nsites [(start, None)] [(start, None)] start (psSetup procs interval spatial start nsites)).
  { constructor; try reflexivity. destruct spatial; [|reflexivity]. eexists. split; [reflexivity|]. rewrite zlen_repeat, zsum_repeat. split; [lia|]. split; [cbn; lia|].
    intros j v Hv. assert (R := zget_range _ _ _ Hv). rewrite zlen_repeat in R. rewrite zget_repeat in Hv by lia. injection Hv as <-. reflexivity. }
  destruct (psSteps_blocks procs interval spatial nsites steps _ _ _ _ I0 (startsAt_one (start, None)) HS) as (ps & b & E & I & _ & EL & ED).
  set (blocks := cutBlocks interval [(start, None)] start (map obs steps)) in *.
  assert (HB : blocks <> []) by (unfold blocks; destruct (cutBlocks_first interval (map obs steps) [(start, None)] start (startsAt_one (start, @None (Z * Z)))) as (x & r & -> & _); discriminate).
  assert (IB : inBlocks interval (withStart start steps) blocks).
  { apply (cutBlocks_ok interval Hi (map obs steps) [(start, None)] start (startsAt_one (start, None))). intros x [<-|[]]. cbn. lia. }
  assert (ET : zsum (ps_data ps) + ps_count ps = tally (tracked procs) (withStart start steps)).
  { rewrite ED, (pi_count _ _ _ _ _ _ _ _ I), <- EL. destruct IB as (<- & _). cbn [ps_data psSetup app].
    assert (G : forall l : list (list (Z * option (Z * Z))), l <> [] -> zsum (map (tally (tracked procs)) (removelast l)) + tally (tracked procs) (last l []) = tally (tracked procs) (concat l)).
    { clear. intros l Hl. rewrite (app_removelast_last [] Hl) at 3. rewrite concat_app, tally_app. cbn [concat]. rewrite app_nil_r. f_equal.
      induction (removelast l) as [|c m IH]; [reflexivity|]. cbn [map concat]. rewrite zsum_cons, tally_app, IH. reflexivity. }
    exact (G _ HB). }
  exists ps, blocks. split; [exact E|]. split; [exact IB|]. split; [exact ED|]. split; [rewrite (pi_count _ _ _ _ _ _ _ _ I), EL; reflexivity|]. split; [exact ET|].
  assert (SP := pi_spatial _ _ _ _ _ _ _ _ I). destruct spatial; [|exact SP]. destruct SP as (l & E1 & E2 & E3 & E4). exists l. split; [exact E1|]. split; [exact E2|].
  split; [rewrite ET; exact E3|exact E4].
Qed.
(** processes 0 and 2 are followed; two blocks are finished *)
Example C37_example : exists ps, psRun [0; 2] 10 true 4 0 [(4, (0, 1)); (12, (2, 3)); (13, (1, 3)); (23, (2, 3))] = Ok ps /\ ps_data ps = [1; 1] /\ ps_count ps = 1 /\ ps_spatial ps = Some [0; 1; 0; 2].
Proof. eexists. split; [vm_compute; reflexivity|]. repeat split. Qed.

(** ** C38 *)
(** The claim: the value reported for site x is the number of followed events at x, per time from the start to the last registered step. *)
Definition normalised (procs : list Z) (start : Z) (steps : list (Z * (Z * Z))) (x : Z) (v : option Q) : Prop :=
  exists q, v = Some q /\ (q * inject_Z (last (map fst steps) start - start) == inject_Z (tally (trackedAt procs x) (withStart start steps)))%Q.
(** It is false: the values are divided by the time at which the running block started.  Six steps from time 0 to time 30, one event every 5; the last
    block started at 22. *)
Theorem C38_normalised_refuted : exists procs interval nsites start steps ps l x v,
  start = 0 /\ forwards start (map fst steps) /\ psRun procs interval true nsites start steps = Ok ps /\ psFinalize ps = Some l /\ zget l x = Some v /\
  0 < last (map fst steps) start - start /\ ~ normalised procs start steps x v.
Proof.
  exists [0], 10, 2, 0, [(5, (0, 1)); (11, (0, 1)); (16, (0, 1)); (22, (0, 1)); (27, (0, 1)); (30, (0, 1))]. eexists _, _, 1, _.
  split; [reflexivity|]. split; [intros d Hd; cbn in Hd; lia|]. split; [vm_compute; reflexivity|]. split; [vm_compute; reflexivity|]. split; [vm_compute; reflexivity|].
  split; [cbn; lia|]. intros (q & E & H). injection E as <-. revert H. vm_compute. discriminate.
Qed.
(** In a short run, no longer than the interval, the division is by the start time: by zero for a simulation from time 0. *)
Theorem C38_short_run_refuted : exists procs interval nsites steps ps l x,
  forwards 0 (map fst steps) /\ psRun procs interval true nsites 0 steps = Ok ps /\ psFinalize ps = Some l /\ zget l x = Some None /\ 0 < tally (trackedAt procs x) (withStart 0 steps).
Proof.
  exists [0], 10, 2, [(5, (0, 1)); (9, (0, 1))]. eexists _, _, 1. split; [intros d Hd; cbn in Hd; lia|]. split; [vm_compute; reflexivity|]. split; [vm_compute; reflexivity|].
  split; vm_compute; reflexivity.
Qed.
(** What is reported: the number of events at the site divided by the time at which the last block started; so the claim holds for a simulation that
    started at time 0 and registered its last step at the start of a block.  Missing: all others. *)
Theorem C38_normalised_partial procs interval nsites start steps blocks ps l x v t :
  0 <= interval -> 0 <= nsites -> (forall s, In s steps -> 0 <= snd (snd s) < nsites) -> inBlocks interval (withStart start steps) blocks -> startsAt (last blocks []) t -> 0 < t ->
  psRun procs interval true nsites start steps = Ok ps -> psFinalize ps = Some l -> zget l x = Some v ->
  (exists q, v = Some q /\ (q * inject_Z t == inject_Z (tally (trackedAt procs x) (withStart start steps)))%Q) /\
  (start = 0 -> last (map fst steps) start = t -> normalised procs start steps x v).
Proof.
  intros Hi HN HS IB HT Ht ER EF EG.
  assert (I0 : psInv procs interval true nsites [(start, None)] [(start, None)] start (psSetup procs interval true start nsites)).
  { constructor; try reflexivity. eexists. split; [reflexivity|]. rewrite zlen_repeat, zsum_repeat. split; [lia|]. split; [cbn; lia|].
    intros j w Hw. assert (R := zget_range _ _ _ Hw). rewrite zlen_repeat in R. rewrite zget_repeat in Hw by lia. injection Hw as <-. reflexivity. }
  destruct (psSteps_blocks procs interval true nsites steps _ _ _ _ I0 (startsAt_one (start, None)) HS) as (ps' & b & E & I & SB & EL & _).
  unfold psRun in ER. rewrite ER in E. injection E as <-.
  assert (EB : blocks = cutBlocks interval [(start, None)] start (map obs steps)).
  { apply (C34_blocks_unique interval (withStart start steps)); [exact IB|]. apply (cutBlocks_ok interval Hi (map obs steps) [(start, None)] start (startsAt_one (start, None))). intros y [<-|[]]. cbn. lia. }
  rewrite EB, EL in HT. assert (ELast : ps_last ps = t) by exact (startsAt_fun _ _ _ SB HT).
  destruct (pi_spatial _ _ _ _ _ _ _ _ I) as (sp & E1 & _ & _ & E4). unfold psFinalize in EF. rewrite E1, ELast in EF. cbn in EF. injection EF as <-.
  rewrite zget_map in EG. destruct (zget sp x) as [w|] eqn:EW; [|discriminate]. cbn in EG. injection EG as <-. destruct (Z.eqb_spec t 0) as [|_]; [lia|].
  assert (EQ : (inject_Z w / inject_Z t * inject_Z t == inject_Z (tally (trackedAt procs x) (withStart start steps)))%Q).
  { rewrite Qdiv_mean by exact Ht. rewrite (E4 _ _ EW). reflexivity. }
  split; [eexists; split; [reflexivity|exact EQ]|]. intros -> EL2. eexists. split; [reflexivity|]. rewrite EL2, Z.sub_0_r. exact EQ.
Qed.
Example C38_partial_example : exists ps l, psRun [0; 2] 10 true 4 0 [(4, (0, 1)); (12, (2, 3)); (13, (1, 3)); (23, (2, 3))] = Ok ps /\ psFinalize ps = Some l /\ zget l 3 = Some (Some (2 # 23)%Q) /\
  inBlocks 10 (withStart 0 [(4, (0, 1)); (12, (2, 3)); (13, (1, 3)); (23, (2, 3))]) [[(0, None); (4, Some (0, 1))]; [(12, Some (2, 3)); (13, Some (1, 3))]; [(23, Some (2, 3))]].
Proof.
  eexists _, _. split; [vm_compute; reflexivity|]. split; [vm_compute; reflexivity|]. split; [vm_compute; reflexivity|].
  exact (cutBlocks_ok 10 ltac:(lia) (map obs [(4, (0, 1)); (12, (2, 3)); (13, (1, 3)); (23, (2, 3))]) [(0, None)] 0 (startsAt_one (0, None)) ltac:(intros x [<-|[]]; cbn; lia)).
Qed.

Print Assumptions C34_block_averages.
Print Assumptions C34_blocks_unique.
Print Assumptions C34_true_counts.
Print Assumptions C35_in_block_refuted.
Print Assumptions C35_in_block_partial.
Print Assumptions C36_histogram.
Print Assumptions C36_normalized.
Print Assumptions C36_times.
Print Assumptions C37_counts.
Print Assumptions C38_normalised_refuted.
Print Assumptions C38_short_run_refuted.
Print Assumptions C38_normalised_partial.
