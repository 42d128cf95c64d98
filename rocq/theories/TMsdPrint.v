(** C84: the table of the mean square displacements. *)
From Coq Require Import Reals Qreals Qround Psatz.
From Verif Require Import PBase PAnalysis MMsdPrint SMsdDev SPrint PMsd PMsdDev TMsd TMsdDev PPrint.
From Coq Require Import ZifyBool.
Open Scope string_scope.
Open Scope list_scope.
Open Scope Z_scope.

Lemma fmt11_cell q : exists a, oneCell (fmt11 q) a /\ toDigits 5 q a.
Proof.
  destruct (fmtE_cell 11 5 (Zpos (Qden q)) (Qnum q) ltac:(lia) ltac:(lia)) as (a & C & D). exists a. split; [exact C|]. apply (toDigits_eq _ (inject_Z (Qnum q) / inject_Z (Zpos (Qden q)))); [|exact D]. symmetry. destruct q as [n d]. apply Qmake_Qdiv.
Qed.
Lemma fieldLine_ok s ss a aa : oneCell s a -> Forall2 oneCell ss aa -> exists l, fieldLine s ss = (l ++ NL)%string /\ without "010" l /\ cells l = a :: aa.
Proof.
  intros H1 H2. destruct (many_cells (s :: ss) (a :: aa) ltac:(constructor; assumption)) as [W EC]. cbv zeta in W, EC. cbn [map cat] in W, EC. exists (s ++ cat (map (fun c => " " ++ c)%string ss))%string.
  split; [unfold fieldLine; rewrite !sapp_assoc; reflexivity|]. split; [|exact EC]. exact (proj2 W).
Qed.
Lemma fmt11_cells l : exists aa, Forall2 oneCell (map fmt11 l) aa /\ Forall2 (toDigits 5) l aa.
Proof. induction l as [|q l (aa & C & D)]; [exists []; split; constructor|]. destruct (fmt11_cell q) as (a & C1 & D1). exists (a :: aa). split; constructor; assumption. Qed.
Lemma cat_lines ls : forall ws, Forall2 (fun l w => l = (w ++ NL)%string /\ without "010" w) ls ws -> lines (cat ls) = ws.
Proof.
  induction ls as [|l ls IH]; intros ws H; inversion H as [|? w ? ws' [-> HW] H2]; subst; [reflexivity|]. cbn [cat]. rewrite sapp_assoc, lines_cons by exact HW. f_equal. apply IH. exact H2.
Qed.
Definition titles : list string := ["TIME"; "MSD_x"; "MSD_y"; "MSD_z"; "MSD_xy"; "MSD_xz"; "MSD_yz"; "MSD_xyz"; "STD_x"; "STD_y"; "STD_z"; "STD_xy"; "STD_xz"; "STD_yz"; "STD_xyz"; "N_eff"].
Lemma title_ok s : exists l, lines (msTitle ++ s) = l :: lines s /\ cells l = titles.
Proof.
  exists (padLeft 11 "TIME " ++ cat (map (fun c => " " ++ c) (map (padLeft 11) ["MSD_x "; "MSD_y "; "MSD_z "; "MSD_xy "; "MSD_xz "; "MSD_yz "; "MSD_xyz "; "STD_x "; "STD_y "; "STD_z "; "STD_xy "; "STD_xz "; "STD_yz "; "STD_xyz "; "N_eff"])))%string.
  split; [|vm_compute; reflexivity]. set (l := (padLeft 11 "TIME " ++ _)%string).
  assert (W : without "010" l) by (vm_compute; repeat split; discriminate).
  assert (E : msTitle = (l ++ NL)%string) by (vm_compute; reflexivity). rewrite E, sapp_assoc, lines_cons by exact W. reflexivity.
Qed.

Section C84.
Context (H nb tmax size n : Z) (track : string) (ca cb cc : coord) (start : Z * config) (steps : list (Z * config)).
Context (H1 : 2 <= H) (Hnb : 1 <= nb) (Ht : 0 < tmax) (Hs : forall o, In o (start :: steps) -> nAtoms n o) (Hf : forwards (fst start) (map fst steps)).
Let run := msRun H nb tmax track (transpose3 ca cb cc) size start steps.
Let due := allCompared (H - 1) n (fun id => stops track id start steps).
Context (digits : R -> string) (Hd : forall x, okWord (digits x)).

(** The line of bin b *)
Lemma line_ok U V ms neff b : 0 < U -> 0 < V -> run = Some ms -> msNeff ms = Some neff -> 0 <= b < nb ->
  exists l, msLine digits U V ms neff b = Some (l ++ NL)%string /\ without "010" l /\ exists t xs ss nf tc xc nc,
    zget (msTimes ms) b = Some t /\ omap (fun row => zget row b) (msResults ms) = Some xs /\ omap (fun r => msStdDev ms r b) (zrange 0 6) = Some ss /\ zget neff b = Some nf /\
    cells l = tc :: xc ++ map (fun s => digits (s / IZR V)%R) ss ++ [nc] /\ toDigits 5 (t / inject_Z U) tc /\ Forall2 (fun x c => toDigits 5 (x / inject_Z V) c) xs xc /\ toDigits 5 nf nc.
Proof.
  intros HU HV E EN Hb. assert (H1' : 1 <= H) by lia. assert (Hnb' : 0 <= nb) by lia. unfold msLine.
  destruct (C63_times H nb tmax size n track ca cb cc start steps H1' Hnb' Ht Hs Hf ms b E Hb) as (t & _ & ET & _). rewrite ET. cbn [obind].
  assert (X : exists xs, omap (fun row => zget row b) (msResults ms) = Some xs).
  { apply omap_total. intros row Hr. destruct (In_zget _ _ Hr) as (r & Er). assert (ED : exists f, zget directions r = Some f). { pose proof (zget_range _ _ _ Er) as RR. change (zlen (msResults ms)) with 7 in RR. apply zget_lt. change (zlen directions) with 7. lia. }
    destruct ED as (f & ED). destruct (C63_means H nb tmax size n track ca cb cc start steps H1' Hnb' Ht Hs Hf ms r f b E ED Hb) as (row' & q & R1 & _ & R3 & _). rewrite Er in R1. injection R1 as <-. eauto. }
  destruct X as (xs & EX). rewrite EX. cbn [obind].
  assert (X : exists ss, omap (fun r => msStdDev ms r b) (zrange 0 6) = Some ss).
  { apply omap_total. intros r Hr. apply In_zrange in Hr. destruct (zget_lt directions r) as (f & ED); [change (zlen directions) with 7; lia|].
    destruct (C76_deviation H nb tmax size n track ca cb cc start steps H1' Hnb' Ht Hs Hf ms r f b E ED Hb) as (row & q & neff' & st & s & _ & _ & _ & _ & ES & _). eauto. }
  destruct X as (ss & ES). rewrite ES. cbn [obind].
  destruct (C63_steps H nb tmax size n track ca cb cc start steps H1' Hnb' Ht Hs Hf ms E) as (neff' & EN' & _ & HN). rewrite EN in EN'. injection EN' as <-. destruct (HN b Hb) as (nf & EF & _). rewrite EF. cbn [obind].
  destruct (fmt11_cell (t / inject_Z U)) as (tc & T1 & T2). destruct (fmt11_cells (map (fun x => x / inject_Z V)%Q xs)) as (xc & X1 & X2). destruct (fmt11_cell nf) as (nc & N1 & N2).
  destruct (fieldLine_ok (fmt11 (t / inject_Z U)) (map (fun x => fmt11 (x / inject_Z V)) xs ++ map (fun s => padLeft 11 (digits (s / IZR V)%R)) ss ++ [fmt11 nf]) tc (xc ++ map (fun s => digits (s / IZR V)%R) ss ++ [nc])) as (l & EL & W & EC); [exact T1| |].
  { apply Forall2_app; [rewrite map_map in X1; exact X1|]. apply Forall2_app; [|constructor; [exact N1|constructor]]. clear - Hd. induction ss as [|s ss IH]; constructor; [apply oneCell_pad, Hd|exact IH]. }
  rewrite EL. exists l. split; [reflexivity|]. split; [exact W|]. exists t, xs, ss, nf, tc, xc, nc. repeat (split; [first [reflexivity|assumption]|]). split; [|exact N2].
  clear - X2. revert xc X2. induction xs as [|x xs IH]; intros xc X2; inversion X2; subst; constructor; [assumption|apply IH; assumption].
Qed.
(** The table has a title and one line for each bin before the cutoff: the first bin into which more than 1 % of the largest number of comparisons over the longest lag fall.  The line
    of a bin shows its centre, and for each of the seven directions the mean of the squared displacements of the comparisons in the bin, and the mean number of steps of these
    comparisons, all to six digits; and the standard deviations (see C76 for the number K). *)
Theorem C84_table U V ms : 0 < U -> 0 < V -> run = Some ms ->
  let last := fun b => tally (fun c => (lag c =? H - 1) && fallsIn tmax nb b c) due in
  exists text cut title rows top, msPrint digits 0 U V ms = Some text /\ lines text = title :: rows /\ cells title = titles /\ zlen rows = cut /\
    0 <= cut <= nb /\ (exists b, 0 <= b < nb /\ top = last b) /\ (forall b, 0 <= b < nb -> last b <= top) /\ (forall b, 0 <= b < cut -> 100 * last b <= top) /\ (cut < nb -> top < 100 * last cut) /\
    forall b line, zget rows b = Some line -> exists t xs ss nf, cells line = t :: xs ++ ss ++ [nf] /\ zlen xs = 7 /\ zlen ss = 7 /\
      toDigits 5 (inUnits U ((2 * b + 1) * tmax) / inject_Z (2 * nb)) t /\
      let inBin := filter (fallsIn tmax nb b) due in
      exists m, toDigits 5 m nf /\ (inBin <> [] -> isMean (map lag inBin) m) /\ (inBin = [] -> (m == 0)%Q) /\
      let K := tally (fun c => lag c =? Qfloor m + 2) due in
      forall r f, zget directions r = Some f -> exists x s q d, zget xs r = Some x /\ zget ss r = Some s /\
        toDigits 5 (q / inject_Z V) x /\ (inBin <> [] -> isMean (map (fun c => f (squared ca cb cc c)) inBin) q) /\ (inBin = [] -> (q == 0)%Q) /\
        s = digits (d / IZR V)%R /\ (inBin <> [] -> 0 < K -> isDeviation r (Q2R q) (Q2R m) (IZR K) d) /\ (inBin = [] \/ K = 0 -> d = 0%R).
Proof.
  intros HU HV E last. assert (H1' : 1 <= H) by lia. assert (Hnb' : 0 <= nb) by lia.
  destruct (C63_cutoff H nb tmax size n track ca cb cc start steps H1' Hnb' Ht Hs Hf ms E H1 Hnb) as (cut & top & EC & HC & HT & HM & HB & HA). cbv zeta in *. fold due in HT, HM, HB, HA.
  destruct (C63_steps H nb tmax size n track ca cb cc start steps H1' Hnb' Ht Hs Hf ms E) as (neff & EN & _ & HN). fold due in HN.
  assert (LT : zlen (msTimes ms) = nb) by (destruct (C63_times H nb tmax size n track ca cb cc start steps H1' Hnb' Ht Hs Hf ms 0 E ltac:(lia)) as (? & L & _); exact L).
  unfold msPrint. change (0 =? 0) with true. cbv iota. rewrite EC, EN. cbn [obind]. rewrite LT, Z.min_l by lia.
  assert (X : exists ls, omap (msLine digits U V ms neff) (zrange 0 (cut - 1)) = Some ls).
  { apply omap_total. intros b Hb. apply In_zrange in Hb. destruct (line_ok U V ms neff b HU HV E EN ltac:(lia)) as (l & EL & _). eauto. }
  destruct X as (ls & EL). rewrite EL. cbn [obind].
  assert (X : exists rows, Forall2 (fun l w => l = (w ++ NL)%string /\ without "010" w) ls rows).
  { apply omap_Forall2 in EL. assert (HR : forall b, In b (zrange 0 (cut - 1)) -> 0 <= b < nb) by (intros b Hb; apply In_zrange in Hb; lia). revert HR EL. generalize (zrange 0 (cut - 1)). intros bs HR F.
    induction F as [|b l bs ls EB F IH]; [exists []; constructor|]. destruct IH as (rows & IH); [intros c Hc; apply HR; right; exact Hc|].
    destruct (line_ok U V ms neff b HU HV E EN (HR b (or_introl eq_refl))) as (w & EW & W & _). rewrite EB in EW. injection EW as ->. exists (w :: rows). constructor; [auto|exact IH]. }
  destruct X as (rows & FR). destruct (title_ok (cat ls)) as (title & ETl & ECl). exists (msTitle ++ cat ls)%string, cut, title, rows, top. rewrite (cat_lines _ _ FR) in ETl.
  assert (LR : zlen rows = cut) by (rewrite <- (Forall2_zlen _ _ _ FR), (omap_zlen _ _ _ EL), zlen_zrange; lia).
  repeat (split; [first [reflexivity|assumption]|]). intros b line Hl. pose proof (zget_range _ _ _ Hl) as RB. rewrite LR in RB.
  destruct (line_ok U V ms neff b HU HV E EN ltac:(lia)) as (l & E2 & W & t & xs & ss & nf & tc & xc & nc & G1 & G2 & G3 & G4 & G5 & G6 & G7 & G8).
  assert (line = l) as ->.
  { pose proof (omap_zget _ _ _ b EL) as OZ. rewrite zget_zrange in OZ by lia. cbn [obind] in OZ. rewrite Z.add_0_l, E2 in OZ. destruct (PAnalysis.Forall2_zget _ _ _ FR _ _ _ OZ Hl) as [EX W2].
    apply (f_equal lines) in EX. rewrite <- (sapp_nil (l ++ NL)), <- (sapp_nil (line ++ NL)), !sapp_assoc, !lines_cons in EX by assumption. injection EX as <-. reflexivity. }
  assert (LX : zlen xs = 7) by (rewrite (omap_zlen _ _ _ G2); reflexivity). assert (LS : zlen ss = 7) by (rewrite (omap_zlen _ _ _ G3); reflexivity).
  exists tc, xc, (map (fun s => digits (s / IZR V)%R) ss), nc. split; [exact G5|]. split; [rewrite <- (Forall2_zlen _ _ _ G7); exact LX|]. split; [rewrite zlen_map; exact LS|]. split.
  { destruct (C63_times H nb tmax size n track ca cb cc start steps H1' Hnb' Ht Hs Hf ms b E ltac:(lia)) as (t' & _ & ET & EQ). rewrite G1 in ET. injection ET as <-.
    apply (toDigits_eq _ (t / inject_Z U)); [|exact G6]. unfold inUnits. rewrite <- EQ. field. split; apply inject_neq; lia. }
  destruct (HN b ltac:(lia)) as (nf' & EF & NM & NZ). rewrite G4 in EF. injection EF as <-. exists nf. split; [exact G8|].
  split; [intros NE; apply NM; destruct (filter (fallsIn tmax nb b) due); [contradiction|discriminate]|]. split; [intros EZ; apply NZ; rewrite EZ; reflexivity|].
  intros r f ED. pose proof (zget_range _ _ _ ED) as RR. change (zlen directions) with 7 in RR.
  destruct (C63_means H nb tmax size n track ca cb cc start steps H1' Hnb' Ht Hs Hf ms r f b E ED ltac:(lia)) as (row & q & R1 & _ & R3 & M1 & M2). cbv zeta in M1, M2. fold due in M1, M2.
  pose proof (omap_zget _ _ _ r G2) as OX. rewrite R1 in OX. cbn [obind] in OX. rewrite R3 in OX.
  destruct (zget_lt xc r) as (x & Ex); [rewrite <- (Forall2_zlen _ _ _ G7); lia|].
  pose proof (omap_zget _ _ _ r G3) as OS. rewrite zget_zrange in OS by lia. cbn [obind] in OS. rewrite Z.add_0_l in OS. destruct (zget_lt ss r ltac:(lia)) as (d & Ed).
  exists x, (digits (d / IZR V)%R), q, d. split; [exact Ex|]. split; [rewrite zget_map, Ed; reflexivity|]. split; [exact (PAnalysis.Forall2_zget _ _ _ G7 _ _ _ OX Ex)|].
  split; [intros NE; apply M1; destruct (filter (fallsIn tmax nb b) due); [contradiction|discriminate]|]. split; [intros EZ; apply M2; rewrite EZ; reflexivity|]. split; [reflexivity|].
  destruct (C76_deviation H nb tmax size n track ca cb cc start steps H1' Hnb' Ht Hs Hf ms r f b E ED ltac:(lia)) as (row' & q' & neff' & m' & d' & R1' & R3' & EN' & G4' & ES & HV'). cbv zeta in HV'. fold due in HV'.
  rewrite R1 in R1'. injection R1' as <-. rewrite R3 in R3'. injection R3' as <-. rewrite EN in EN'. injection EN' as <-. rewrite G4 in G4'. injection G4' as <-. rewrite <- OS, Ed in ES. injection ES as <-. exact (proj2 HV').
Qed.
End C84.
(** Only the master prints.  With one history step the table cannot be printed. *)
Theorem C84_master digits rank U V ms : rank <> 0 -> msPrint digits rank U V ms = Some "".
Proof. intros HR. unfold msPrint. destruct (Z.eqb_spec rank 0); [contradiction|reflexivity]. Qed.
Theorem C84_one_step_refuted : exists nb tmax size n track ca cb cc start steps ms,
  1 <= nb /\ 0 < tmax /\ (forall o, In o (start :: steps) -> nAtoms n o) /\ forwards (fst start) (map fst steps) /\ msRun 1 nb tmax track (transpose3 ca cb cc) size start steps = Some ms /\
  forall digits U V, msPrint digits 0 U V ms = None.
Proof.
  destruct xv_ok as [A B]. destruct (C39_runs 1 5 20 2 2 "A" (mkC 2 0 0) (mkC 0 1 0) (mkC 0 0 1) xmStart xmSteps ltac:(lia) ltac:(lia) ltac:(lia) A B) as (ms & E).
  exists 5, 20, 2, 2, "A", (mkC 2 0 0), (mkC 0 1 0), (mkC 0 0 1), xmStart, xmSteps, ms. split; [lia|]. split; [lia|]. split; [exact A|]. split; [exact B|]. split; [exact E|].
  intros digits U V. destruct (C64_one_step 5 20 2 2 "A" (mkC 2 0 0) (mkC 0 1 0) (mkC 0 0 1) xmStart xmSteps ms ltac:(lia) ltac:(lia) A B E) as [EC _]. unfold msPrint. rewrite EC. reflexivity.
Qed.
(** One would expect that each displacement in the table is a mean over observed displacements.  Bins into which no comparison falls are printed too, with displacement 0. *)
Definition someDigits (x : R) : string := "0.00000e+00".
Theorem C84_empty_refuted : exists H nb tmax size n track ca cb cc start steps ms text line x,
  2 <= H /\ 1 <= nb /\ 0 < tmax /\ (forall o, In o (start :: steps) -> nAtoms n o) /\ forwards (fst start) (map fst steps) /\ msRun H nb tmax track (transpose3 ca cb cc) size start steps = Some ms /\
  msPrint someDigits 0 1 1 ms = Some text /\ zget (lines text) 1 = Some line /\ filter (fallsIn tmax nb 0) (allCompared (H - 1) n (fun id => stops track id start steps)) = [] /\
  zget (cells line) 1 = Some x /\ readsAs x 0.
Proof.
  destruct xv_ok as [A B]. destruct (C39_runs 5 5 20 2 2 "A" (mkC 2 0 0) (mkC 0 1 0) (mkC 0 0 1) xmStart xmSteps ltac:(lia) ltac:(lia) ltac:(lia) A B) as (ms & E).
  destruct (C84_table 5 5 20 2 2 "A" (mkC 2 0 0) (mkC 0 1 0) (mkC 0 0 1) xmStart xmSteps ltac:(lia) ltac:(lia) ltac:(lia) A B someDigits ltac:(intros x; repeat split; discriminate) 1 1 ms ltac:(lia) ltac:(lia) E) as (text & cut & title & rows & top & EP & EL & _ & EZ & HC & _ & HM & _ & HA & HR). cbv zeta in *.
  change (allCompared (5 - 1) 2 (fun id => stops "A" id xmStart xmSteps)) with (xvDue 5) in *.
  assert (L0 : tally (fun c => (lag c =? 5 - 1) && fallsIn 20 5 0 c) (xvDue 5) = 0) by (vm_compute; reflexivity). assert (EI : filter (fallsIn 20 5 0) (xvDue 5) = []) by (vm_compute; reflexivity).
  assert (0 < cut). { destruct (Z.eq_dec cut 0) as [->|]; [|lia]. specialize (HM 0 ltac:(lia)). specialize (HA ltac:(lia)). lia. }
  destruct (zget_lt rows 0 ltac:(lia)) as (line & Hl). destruct (HR 0 line Hl) as (t & xs & ss & nf & EC & LX & LS & _ & m0 & _ & _ & _ & HD). destruct (HD 0 cx eq_refl) as (x & s & q & d & Ex & _ & TX & _ & Q0 & _).
  exists 5, 5, 20, 2, 2, "A", (mkC 2 0 0), (mkC 0 1 0), (mkC 0 0 1), xmStart, xmSteps, ms, text, line, x. split; [lia|]. split; [lia|]. split; [lia|]. split; [exact A|]. split; [exact B|]. split; [exact E|]. split; [exact EP|].
  split; [rewrite EL; rewrite zget_cons; exact Hl|]. split; [exact EI|]. split; [rewrite EC, zget_cons; change (1 =? 0) with false; cbv iota; change (1 - 1) with 0; rewrite zget_app_l by lia; exact Ex|].
  destruct TX as (q' & RX & HQ). destruct RX as (m & k & ED & EQ). exists m, k. split; [exact ED|]. rewrite <- EQ. clear EQ. specialize (Q0 EI). rewrite Q0 in HQ. change (0 / inject_Z 1)%Q with (0 # 1)%Q in HQ.
  assert (HZ : (Qabs (q' - (0 # 1)) <= 0)%Q) by (eapply Qle_trans; [exact HQ|]; vm_compute; discriminate).
  pose proof (Qabs_nonneg (q' - (0 # 1))) as HP. assert (HE : (Qabs (q' - (0 # 1)) == 0)%Q) by (apply Qle_antisym; assumption).
  symmetry. destruct q' as [a e]. unfold Qeq, Qabs, Qminus, Qplus, Qopp in HE |- *. cbn [Qnum Qden] in *. lia.
Qed.
(** ** A concrete case: the atom that hops three times.  All bins are printed. *)
Example C84_example : exists ms text title rows, xvRun 5 = Some ms /\ (forall o, In o (xmStart :: xmSteps) -> nAtoms 2 o) /\ forwards (fst xmStart) (map fst xmSteps) /\ (forall x, okWord (someDigits x)) /\
  msPrint someDigits 0 1 1 ms = Some text /\ lines text = title :: rows /\ zlen rows = 5 /\ filter (fallsIn 20 5 1) (xvDue 5) <> [].
Proof.
  destruct xv_ok as [A B]. destruct (C39_runs 5 5 20 2 2 "A" (mkC 2 0 0) (mkC 0 1 0) (mkC 0 0 1) xmStart xmSteps ltac:(lia) ltac:(lia) ltac:(lia) A B) as (ms & E).
  destruct (C84_table 5 5 20 2 2 "A" (mkC 2 0 0) (mkC 0 1 0) (mkC 0 0 1) xmStart xmSteps ltac:(lia) ltac:(lia) ltac:(lia) A B someDigits ltac:(intros x; repeat split; discriminate) 1 1 ms ltac:(lia) ltac:(lia) E) as (text & cut & title & rows & top & EP & EL & _ & EZ & HC & _ & HM & _ & HA & _). cbv zeta in *.
  change (allCompared (5 - 1) 2 (fun id => stops "A" id xmStart xmSteps)) with (xvDue 5) in *.
  exists ms, text, title, rows. split; [exact E|]. split; [exact A|]. split; [exact B|]. split; [intros x; repeat split; discriminate|]. split; [exact EP|]. split; [exact EL|]. split; [|vm_compute; discriminate].
  assert (L0 : forallb (fun b => tally (fun c => (lag c =? 5 - 1) && fallsIn 20 5 b c) (xvDue 5) =? 0) (zrange 0 4) = true) by (vm_compute; reflexivity). rewrite forallb_forall in L0.
  destruct (Z.eq_dec cut 5) as [->|NC]; [exact EZ|]. exfalso. specialize (HA ltac:(lia)). specialize (HM cut ltac:(lia)). specialize (L0 cut (proj2 (In_zrange cut 0 4) ltac:(lia))). lia.
Qed.
Print Assumptions C84_table. Print Assumptions C84_master. Print Assumptions C84_one_step_refuted. Print Assumptions C84_empty_refuted. Print Assumptions C84_example.
