(** C77: the tables that the analysis objects print. *)
From Verif Require Import PBase PPrint.
From Verif Require Import TAnalysis.
Open Scope string_scope.
Open Scope list_scope.
Open Scope Z_scope.

(** ** Process statistics *)
Lemma zget_removelast {A} (l : list A) i a : zget (removelast l) i = Some a -> zget l i = Some a.
Proof.
  intros H. destruct l as [|x l]; [exact H|]. rewrite (app_removelast_last x (l := x :: l)) by discriminate. rewrite zget_app_l; [exact H|]. apply zget_range in H. lia.
Qed.
Lemma firstn_removelast {A} (l : list A) n : Z.of_nat n < zlen l -> firstn n (removelast l) = firstn n l.
Proof.
  intros H. destruct l as [|x l]; [reflexivity|]. rewrite (app_removelast_last x (l := x :: l)) at 2 by discriminate. rewrite firstn_app. replace (n - length (removelast (x :: l)))%nat with O; [cbn [firstn]; rewrite app_nil_r; reflexivity|].
  assert (E : zlen (removelast (x :: l) ++ [last (x :: l) x]) = zlen (x :: l)) by (rewrite <- app_removelast_last by discriminate; reflexivity). rewrite zlen_app in E. unfold zlen in *. cbn [length] in *. lia.
Qed.
Lemma tally_concat {A} (f : A -> bool) bs : zsum (map (tally f) bs) = tally f (concat bs).
Proof. induction bs as [|b bs IH]; [reflexivity|]. cbn [map concat]. rewrite zsum_cons, tally_app, IH. reflexivity. Qed.
(** Line i of the table, i > 0, is about the time t = i*interval and the blocks 0 to i of the history: n is the number of events in them, dn those of block i.
    The line 0 is the title. *)
Theorem C77_statistics U procs interval spatial nsites start steps :
  0 < U -> 0 < interval -> 0 <= nsites -> (forall s, In s steps -> 0 <= snd (snd s) < nsites) ->
  exists ps blocks text, psRun procs interval spatial nsites start steps = Ok ps /\ inBlocks interval (withStart start steps) blocks /\ psPrint 0 U ps = (text, Ok tt) /\
    zlen (lines text) = Z.max 1 (zlen blocks - 1) /\
    forall i line block, 0 < i -> zget (lines text) i = Some line -> zget blocks i = Some block ->
      let t := inUnits U (i * interval) in
      let n := tally (tracked procs) (concat (firstn (Z.to_nat (i + 1)) blocks)) in
      let dn := tally (tracked procs) block in
      exists a b c d, cells line = [a; b; c; d] /\ toDecimals 5 t a /\ readZ b = Some n /\ toDecimals 5 (inject_Z dn / inUnits U interval) c /\ toDecimals 5 (inject_Z n / t) d.
Proof.
  intros HU HI HN HS. destruct (C37_counts procs interval spatial nsites start steps ltac:(lia) HN HS) as (ps & blocks & E & IB & ED & _). exists ps, blocks.
  assert (EI : ps_interval ps = interval) by exact (psRun_interval _ _ _ _ _ _ _ E).
  unfold psPrint. rewrite EI. change (0 =? 0) with true. cbv iota. 
  assert (HT : zlen (ps_data ps) = zlen blocks - 1).
  { rewrite ED, zlen_map. destruct blocks as [|b bs]; [destruct IB as (IB & _); discriminate|]. rewrite (app_removelast_last b (l := b :: bs)) at 2 by discriminate. rewrite zlen_app. cbn. lia. }
  destruct (ps_data ps) as [|n0 data] eqn:EP.
  - cbn [psLines]. eexists. split; [exact E|]. split; [exact IB|]. split; [reflexivity|]. split; [change (1 = Z.max 1 (zlen blocks - 1)); cbn in HT; lia|].
    intros i line block Hi H. exfalso. apply zget_range in H. change (0 <= i < 1) in H. lia.
  - cbn [psLines]. change (0 <? 0) with false. cbv iota. destruct (psLines_ok U interval HU HI data (0 + 1) (0 + n0) ltac:(lia)) as (r & -> & EL & HL). eexists. split; [exact E|]. split; [exact IB|]. split; [reflexivity|].
    set (h := (padLeft 15 "  time (t)" ++ " " ++ padLeft 15 " count (n)" ++ " " ++ padLeft 15 "(dn/dt)   " ++ " " ++ padLeft 12 "(n/t)")%string).
    replace (padLeft 15 "  time (t)" ++ _)%string with (h ++ NL ++ r)%string by (unfold h; rewrite !sapp_assoc; reflexivity). rewrite lines_cons by (repeat split; discriminate).
    rewrite zlen_cons in HT. rewrite zlen_cons. split; [assert (0 <= zlen data) by apply zlen_nonneg; lia|].
    intros i line block Hi H HB. set (t := inUnits U (i * interval)). set (n := tally (tracked procs) (concat (firstn (Z.to_nat (i + 1)) blocks))). set (dn := tally (tracked procs) block). rewrite zget_cons in H. destruct (Z.eqb_spec i 0); [lia|]. destruct (HL (i - 1) line H) as (v & a & c & d & G & EC & DA & DC & DD). pose proof (zget_range _ _ _ G) as RG.
    assert (EM : 0 + n0 + zsum (firstn (Z.to_nat (i - 1 + 1)) data) = n).
    { unfold n. rewrite <- tally_concat, <- firstn_map. assert (EF : firstn (Z.to_nat (i + 1)) (map (tally (tracked procs)) blocks) = firstn (Z.to_nat (i + 1)) (n0 :: data)).
      { rewrite ED, !firstn_map, firstn_removelast by lia. reflexivity. }
      rewrite EF. replace (Z.to_nat (i + 1)) with (S (Z.to_nat (i - 1 + 1))) by lia. cbn [firstn]. rewrite zsum_cons. lia. }
    assert (EV : v = dn).
    { assert (G2 : zget (map (tally (tracked procs)) (removelast blocks)) i = Some v) by (rewrite <- ED, zget_cons; destruct (Z.eqb_spec i 0); [lia|exact G]). rewrite zget_map in G2. destruct (zget (removelast blocks) i) as [b'|] eqn:EB; [|discriminate]. apply zget_removelast in EB. rewrite HB in EB. injection EB as <-. injection G2 as <-. reflexivity. }
    cbv zeta in EC, DD. rewrite EM in EC, DD. replace (0 + 1 + (i - 1)) with i in * by lia. subst v. exists a, (showZ n), c, d. split; [exact EC|]. split; [exact DA|]. split; [apply readZ_showZ|]. split; [exact DC|exact DD].
Qed.
(** The number printed in line i contains all events up to the time (i + 1)*interval after the start: a whole interval more than the time t = i*interval of the line. *)
Theorem C77_counts_beyond U procs interval spatial nsites start steps ps text i line a b c d n :
  0 < U -> 0 < interval -> 0 <= nsites -> (forall s, In s steps -> 0 <= snd (snd s) < nsites) -> forwards start (map fst steps) ->
  psRun procs interval spatial nsites start steps = Ok ps -> psPrint 0 U ps = (text, Ok tt) -> 0 < i -> zget (lines text) i = Some line -> cells line = [a; b; c; d] -> readZ b = Some n ->
  tally (fun e => tracked procs e && (fst e - start <=? (i + 1) * interval)) (withStart start steps) <= n.
Proof.
  intros HU HI HN HS HF ER EP Hi HL EC EN. destruct (C77_statistics U procs interval spatial nsites start steps HU HI HN HS) as (ps' & blocks & text' & ER' & IB & EP' & EL & HT). rewrite ER in ER'. injection ER' as <-. rewrite EP in EP'. injection EP' as <-.
  pose proof (zget_range _ _ _ HL) as RL. destruct (zget_lt blocks i ltac:(lia)) as (block & HB). destruct (HT i line block Hi HL HB) as (a' & b' & c' & d' & EC' & _ & EN' & _). rewrite EC in EC'. injection EC' as <- <- <- <-. rewrite EN in EN'. injection EN' as ->.
  set (k := Z.to_nat (i + 1)) in *. assert (HC := proj1 IB). rewrite <- (firstn_skipn k blocks), concat_app in HC. rewrite <- HC, tally_app.
  assert (H2 : tally (fun e => tracked procs e && (fst e - start <=? (i + 1) * interval)) (concat (skipn k blocks)) = 0).
  { apply tally_none. intros e He. apply in_concat in He. destruct He as (blk & Hblk & He). destruct (In_zget _ _ Hblk) as (j & Hj). pose proof (zget_range _ _ _ Hj) as RJ.
    assert (HJ : zget blocks (Z.of_nat k + j) = Some blk). { assert (LK : zlen (firstn k blocks) = Z.of_nat k) by (unfold zlen in *; rewrite firstn_length; unfold k; lia). rewrite <- (firstn_skipn k blocks), zget_app_r by lia. replace (Z.of_nat k + j - zlen (firstn k blocks)) with j by lia. exact Hj. }
    replace (Z.of_nat k + j) with (Z.of_nat (k + Z.to_nat j)) in HJ by lia. destruct (proj1 (proj2 IB) _ _ HJ) as (t & Ht & _). destruct (block_starts interval _ blocks start IB ltac:(eexists; eexists; reflexivity) (k + Z.to_nat j)%nat blk t HJ Ht) as (_ & HS2). specialize (HS2 ltac:(unfold k; lia)).
    assert (SB : StronglySorted notLater blk). { apply (sorted_block _ blocks); [|exact (zget_In _ _ _ HJ)]. rewrite (proj1 IB). apply forwards_sorted. rewrite map_map. exact HF. }
    assert (t <= fst e). { destruct Ht as (x & r & ->). destruct He as [<-|He]; [cbn; lia|]. apply StronglySorted_inv in SB. destruct SB as (_ & SB). rewrite Forall_forall in SB. exact (SB e He). }
    destruct (Z.leb_spec (fst e - start) ((i + 1) * interval)); [unfold k in HS2; nia|]. apply Bool.andb_false_r. }
  rewrite H2, Z.add_0_r. generalize (concat (firstn k blocks)). intros l. clear. induction l as [|e l IH]; [cbn; lia|]. rewrite !tally_cons. destruct (tracked procs e); cbn [andb]; [|exact IH]. destruct (fst e - start <=? (i + 1) * interval); lia.
Qed.
(** One event per unit of time: the rate is 1.  In the line for t = 10 the count is not the number of events until then, and the last column, n/t, is 2.1. *)
Definition everyStep : list (Z * (Z * Z)) := map (fun t => (t, (0, 0))) (zrange 1 33).
Theorem C77_count_refuted : exists ps text line, psRun [0] 10 false 1 0 everyStep = Ok ps /\ psPrint 0 1 ps = (text, Ok tt) /\ zget (lines text) 1 = Some line /\
  cells line = ["10.00000"; "21"; "1.10000"; "2.10000"] /\ tally (fun e => tracked [0] e && (fst e <=? 10)) (withStart 0 everyStep) = 10.
Proof. do 3 eexists. split; [vm_compute; reflexivity|]. split; [vm_compute; reflexivity|]. split; [vm_compute; reflexivity|]. split; vm_compute; reflexivity. Qed.

(** ** Composition *)
(** The title names the types but the first, the wildcard, and line i + 1 shows the means of their numbers in block i, to four digits. *)
Theorem C77_composition U interval names start steps :
  0 < U -> 0 <= interval -> names <> [] -> (forall s, In s names -> okWord s) -> (forall s, In s (start :: steps) -> zlen (snd s) = zlen names) ->
  exists co blocks text, coRun interval (zlen names) start steps = Ok co /\ inBlocks interval (start :: steps) blocks /\ coPrint 0 U names co = (text, Ok tt) /\
    zlen (lines text) = zlen blocks /\
    (forall line, zget (lines text) 0 = Some line -> cells line = "time" :: tl names) /\
    forall i line block, 0 <= i -> zget (lines text) (i + 1) = Some line -> zget blocks i = Some block ->
      exists a aa, cells line = a :: aa /\ toDigits 3 (inUnits U (i * interval) + inUnits U interval / 2) a /\ zlen aa = zlen names - 1 /\
        forall j cell, 0 < j -> zget aa (j - 1) = Some cell -> exists q, isMean (column j block) q /\ toDigits 3 q cell.
Proof.
  intros HU HI HN HW HL. destruct names as [|n0 names]; [contradiction|]. set (n := zlen (n0 :: names)) in *. assert (Hn : 0 < n) by (unfold n; rewrite zlen_cons; assert (0 <= zlen names) by apply zlen_nonneg; lia).
  destruct (C34_block_averages interval n start steps HI ltac:(lia) HL) as (co & blocks & E & IB & EB & HD). exists co, blocks. destruct (coSteps_same _ _ _ E) as (EI & EE). cbn [co_interval co_empty coSetup] in EI, EE.
  assert (EZ : zlen (co_empty co) = n) by (rewrite EE, zlen_repeat; lia). unfold coPrint. change (0 =? 0) with true. cbv iota. rewrite EZ, EI. cbn [tl].
  destruct (fields_ok n (padLeft 15 "time" :: map (padLeft 15) names) ("time" :: names)) as (h & EH & WH & CH).
  { rewrite zlen_cons, zlen_map. unfold n. rewrite zlen_cons. reflexivity. }
  { constructor; [apply oneCell_pad; repeat split; discriminate|]. assert (HW' : forall s, In s names -> okWord s) by (intros s Hs; apply HW; right; exact Hs). clear - HW'. induction names as [|s names IH]; constructor; [apply oneCell_pad, HW'; left; reflexivity|apply IH; intros x Hx; apply HW'; right; exact Hx]. }
  rewrite EH.
  assert (HDL : forall d, In d (co_data co) -> zlen d = n). { intros d Hd. destruct (In_zget _ _ Hd) as (i & Hi). pose proof (zget_range _ _ _ Hi). destruct (zget_lt blocks i ltac:(lia)) as (b & Hb). exact (proj1 (HD i b d Hb Hi)). }
  destruct (coLines_ok U interval n HU Hn (co_data co) 0 HDL) as (r & -> & EL & HLn). eexists. split; [exact E|]. split; [exact IB|]. split; [reflexivity|]. rewrite sapp_assoc, lines_cons by exact WH. split; [rewrite zlen_cons, EL; lia|]. split.
  - intros line H. rewrite zget_0 in H. injection H as <-. exact CH.
  - intros i line block Hi H Hb. rewrite zget_S in H by exact Hi. destruct (HLn i line H) as (d & a & aa & G & EC & DA & F). exists a, aa. split; [exact EC|]. split; [exact DA|]. destruct (HD i block d Hb G) as (LD & HM). split.
    + apply Forall2_zlen in F. destruct d as [|q0 d]; [cbn in LD; lia|]. cbn [tl] in F. rewrite zlen_cons in LD. fold n. lia.
    + intros j cell Hj Hc. pose proof (zget_range _ _ _ Hc) as RC. destruct d as [|q0 d]; [cbn in LD; lia|]. cbn [tl] in F. assert (LF : zlen d = zlen aa) by exact (Forall2_zlen _ _ _ F). destruct (zget_lt d (j - 1) ltac:(lia)) as (q & Hq). exists q. split.
      * apply HM. rewrite zget_cons. destruct (Z.eqb_spec j 0); [lia|exact Hq].
      * exact (PAnalysis.Forall2_zget _ _ _ F _ _ _ Hq Hc).
Qed.

(** ** Distribution of time steps *)
(** Line b shows the centre of bin b, the number of steps in it and their part of all steps; every step is in one of the lines. *)
Theorem C77_histogram U size start times : 0 < U -> 0 < size -> forwards start times ->
  exists most, forall passes, (most <= passes)%nat -> exists ts, tsRun passes size start times = Some (Ok ts) /\
    (forall b, zlen (lines (tsPrint 0 U ts)) <= b -> tally (inBin size b) (increments start times) = 0) /\
    forall b line, zget (lines (tsPrint 0 U ts)) b = Some line ->
      let v := tally (inBin size b) (increments start times) in
      exists t c f, cells line = [t; c; f] /\ toDecimals 5 (inUnits U (b * size) + inUnits U size / 2) t /\ readZ c = Some v /\
        (times <> [] -> toDecimals 15 (inject_Z v / inject_Z (zlen times)) f).
Proof.
  intros HU HS HF. destruct (C36_histogram size start times HS HF) as (most & H). exists most. intros passes HP. destruct (H passes HP) as (ts & E & ES & HG & HZ). exists ts. split; [exact E|]. assert (EB : ts_bin ts = size) by exact (tsSteps_bin _ _ _ _ E).
  unfold tsPrint. change (0 =? 0) with true. cbv iota. rewrite EB, ES. destruct (tsLines_ok U size (zlen times) HU (zlen_nonneg _) (ts_hist ts) 0) as (EL & HL). cbv zeta in *. split.
  - intros b Hb. apply HZ. lia.
  - intros b line Hb. destruct (HL b line Hb) as (v & a & c & G & EC & DA & DP). pose proof (zget_range _ _ _ G). rewrite HG in G by lia. injection G as <-. cbn [Z.add] in DA. eexists a, _, c. split; [exact EC|]. split; [exact DA|]. split; [apply readZ_showZ|].
    intros HT. unfold partCell in DP. destruct (Z.eqb_spec (zlen times) 0) as [Z0|]; [|exact DP]. destruct times; [contradiction|]. rewrite zlen_cons in Z0. assert (0 <= zlen times) by apply zlen_nonneg. lia.
Qed.
(** With bins of 10^-6 the times of different bins are printed as the same number. *)
Theorem C77_small_bins_refuted : exists ts l0 l1 t c0 c1 f0 f1, tsRun 20 1 0 [0; 1; 2] = Some (Ok ts) /\ zget (lines (tsPrint 0 1000000 ts)) 0 = Some l0 /\ zget (lines (tsPrint 0 1000000 ts)) 1 = Some l1 /\
  cells l0 = [t; c0; f0] /\ cells l1 = [t; c1; f1] /\ c0 <> c1.
Proof. do 8 eexists. split; [vm_compute; reflexivity|]. split; [vm_compute; reflexivity|]. split; [vm_compute; reflexivity|]. split; [vm_compute; reflexivity|]. split; [vm_compute; reflexivity|]. discriminate. Qed.

(** Only the master prints. *)
Theorem C77_master rank U names ps co ts : rank <> 0 -> psPrint rank U ps = ("", Ok tt) /\ coPrint rank U names co = ("", Ok tt) /\ tsPrint rank U ts = "".
Proof. intros H. unfold psPrint, coPrint, tsPrint. destruct (Z.eqb_spec rank 0); [contradiction|]. repeat split. Qed.

(** ** Examples *)
(** processes 0 and 2 are followed; 1.0 is 10 units, so the interval is 1.0; four blocks, three finished *)
Example C77_statistics_example : exists ps text, psRun [0; 2] 10 true 4 0 [(4, (0, 1)); (12, (2, 3)); (13, (1, 3)); (23, (2, 3)); (24, (0, 0)); (35, (0, 1))] = Ok ps /\ psPrint 0 10 ps = (text, Ok tt) /\
  map cells (lines text) = [["time"; "(t)"; "count"; "(n)"; "(dn/dt)"; "(n/t)"]; ["1.00000"; "2"; "1.00000"; "2.00000"]; ["2.00000"; "4"; "2.00000"; "2.00000"]].
Proof. do 2 eexists. split; [vm_compute; reflexivity|]. split; vm_compute; reflexivity. Qed.
Example C77_beyond_example : forwards 0 (map fst everyStep) /\ (forall s, In s everyStep -> 0 <= snd (snd s) < 1).
Proof.
  split.
  - assert (E : forallb (fun d => 0 <=? d) (increments 0 (map fst everyStep)) = true) by (vm_compute; reflexivity). rewrite forallb_forall in E. intros d Hd. apply Z.leb_le. exact (E d Hd).
  - intros s Hs. apply in_map_iff in Hs. destruct Hs as (t & <- & _). cbn. lia.
Qed.
(** an interval of 0.0 is accepted, but cannot be printed after two blocks *)
Example C77_zero_interval : exists ps text, psRun [0] 0 false 1 0 [(4, (0, 0)); (12, (0, 0))] = Ok ps /\ psPrint 0 1 ps = (text, Raise ZeroDivision).
Proof. do 2 eexists. split; [vm_compute; reflexivity|]. vm_compute. reflexivity. Qed.
Example C77_composition_example : exists co text, coRun 10 3 (0, [0; 3; 1]) [(4, [0; 2; 2]); (12, [0; 1; 3]); (13, [0; 2; 2]); (17, [0; 2; 2]); (23, [0; 3; 1])] = Ok co /\ coPrint 0 1 ["*"; "A"; "B"] co = (text, Ok tt) /\
  map cells (lines text) = [["time"; "A"; "B"]; ["5.000e+00"; "2.500e+00"; "1.500e+00"]; ["1.500e+01"; "1.667e+00"; "2.333e+00"]].
Proof. do 2 eexists. split; [vm_compute; reflexivity|]. split; vm_compute; reflexivity. Qed.
Example C77_histogram_example : exists ts, tsRun 300 10 5 [8; 8; 258] = Some (Ok ts) /\ zget (map cells (lines (tsPrint 0 10 ts))) 0 = Some ["0.50000"; "2"; "0.666666666666667"] /\
  zget (map cells (lines (tsPrint 0 10 ts))) 25 = Some ["25.50000"; "1"; "0.333333333333333"].
Proof. eexists. split; [vm_compute; reflexivity|]. split; vm_compute; reflexivity. Qed.

Print Assumptions C77_statistics. Print Assumptions C77_counts_beyond. Print Assumptions C77_count_refuted. Print Assumptions C77_composition. Print Assumptions C77_histogram. Print Assumptions C77_small_bins_refuted. Print Assumptions C77_master.
