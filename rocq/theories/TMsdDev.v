(** C76: the standard deviation of the mean square displacement. *)
From Coq Require Import Reals Qreals Qround Psatz.
From Verif Require Import PBase PAnalysis MMsdDev SMsdDev PMsd PMsdDev TMsd.
From Coq Require Import ZifyBool.
Open Scope string_scope.
Open Scope list_scope.
Open Scope Z_scope.

(** For a whole number of steps the error factor is the mean over all pairs of displacements of the squared fraction of steps in common. *)
Theorem C76_formula n K : 1 <= n -> 1 <= K -> errorFactor (IZR n) (IZR K) = overlap n K.
Proof.
  intros Hn HK. assert (P2 : forall a, IZR (a ^ 2) = (IZR a ^ 2)%R) by (intros a; symmetry; apply (pow_IZR a 2)). assert (P3 : forall a, IZR (a ^ 3) = (IZR a ^ 3)%R) by (intros a; symmetry; apply (pow_IZR a 3)). assert (Rn : (IZR n <> 0)%R) by (apply not_0_IZR; lia). assert (RK : (IZR K <> 0)%R) by (apply not_0_IZR; lia). pose proof (pairSum_closed n ltac:(lia) K ltac:(lia)) as P. unfold overlap, errorFactor.
  assert (P' : (IZR (pairSum n K) = IZR (6 * pairSum n K) / 6)%R) by (rewrite mult_IZR; field). rewrite P', P. clear P P'. destruct (Rle_dec (IZR n) (IZR K)) as [H|H].
  - apply le_IZR in H. replace (n <=? K) with true by lia. repeat rewrite ?minus_IZR, ?plus_IZR, ?mult_IZR. rewrite P2, P3. field. auto.
  - assert (K < n) by (apply Rnot_le_lt in H; apply lt_IZR in H; exact H). replace (n <=? K) with false by lia. repeat rewrite ?minus_IZR, ?plus_IZR, ?mult_IZR. rewrite !P2, !P3. field. auto.
Qed.
(** It is never negative or undefined, whatever the (mean) number of steps. *)
Theorem C76_positive n K : (0 < n)%R -> (1 <= K)%R -> (0 < errorFactor n K)%R.
Proof. apply errorFactor_pos. Qed.

Lemma countIndex_floor q : (0 <= q)%Q -> countIndex q = Qfloor q + 1.
Proof.
  intros H. unfold countIndex. destruct q as [a d]. unfold Qle in H. cbn in H. unfold Qplus. cbn [Qnum Qden]. rewrite Pos.mul_1_r, Z.mul_1_r, Z.mul_1_l. rewrite Z.quot_div_nonneg by lia. unfold Qfloor. replace (a + Z.pos d) with (a + 1 * Z.pos d) by ring. rewrite Z.div_add by lia. reflexivity.
Qed.
Lemma isMean_ge l q m : isMean l q -> (forall v, In v l -> m <= v) -> (inject_Z m <= q)%Q.
Proof.
  intros [HL E] HV. assert (X : zlen l * m <= zsum l). { clear HL E. induction l as [|v l IH]; [unfold zlen; cbn; lia|]. rewrite zlen_cons, zsum_cons. specialize (IH (fun w Hw => HV w (or_intror Hw))). specialize (HV v (or_introl eq_refl)). lia. }
  assert (Z0 : 0 < zlen l) by (unfold zlen; lia). apply (Qmult_le_r _ _ (inject_Z (zlen l))); [unfold Qlt; cbn; lia|]. rewrite E, <- inject_Z_mult. unfold Qle. cbn. lia.
Qed.

Section C76.
Context (H nb tmax size n : Z) (track : string) (ca cb cc : coord) (start : Z * config) (steps : list (Z * config)).
Context (H1 : 1 <= H) (Hnb : 0 <= nb) (Ht : 0 < tmax) (Hs : forall o, In o (start :: steps) -> nAtoms n o) (Hf : forwards (fst start) (map fst steps)).
Notation run := (msRun H nb tmax track (transpose3 ca cb cc) size start steps).
Notation stopsOf := (fun id => stops track id start steps).
Notation due := (allCompared (H - 1) n stopsOf).

(** The standard deviation reported for direction r and bin b is that of a mean over K displacements of [steps] steps, where [steps] is the mean number of steps
    of the comparisons in the bin, and K is the number of all comparisons over floor(steps) + 2 steps; it is 0 if the bin is empty or there are no such comparisons.
    No exception, no root of a negative number. *)
Theorem C76_deviation ms r f b : run = Some ms -> zget directions r = Some f -> 0 <= b < nb ->
  exists row q neff steps s, zget (msResults ms) r = Some row /\ zget row b = Some q /\ msNeff ms = Some neff /\ zget neff b = Some steps /\ msStdDev ms r b = Some s /\
    let inBin := filter (fallsIn tmax nb b) due in
    let K := tally (fun c => lag c =? Qfloor steps + 2) due in
    (inBin <> [] -> isMean (map (fun c => f (squared ca cb cc c)) inBin) q /\ isMean (map lag inBin) steps) /\
    (inBin <> [] -> 0 < K -> isDeviation r (Q2R q) (Q2R steps) (IZR K) s) /\
    (inBin = [] \/ K = 0 -> s = 0%R).
Proof.
  intros E Hd Hb. destruct (C63_means H nb tmax size n track ca cb cc start steps H1 Hnb Ht Hs Hf ms r f b E Hd Hb) as (row & q & R1 & R2 & R3 & M1 & M2). destruct (C63_steps H nb tmax size n track ca cb cc start steps H1 Hnb Ht Hs Hf ms E) as (neff & N1 & N2 & N3).
  destruct (N3 b Hb) as (m & N4 & L1 & L2). cbv zeta in *. set (sel := filter (fallsIn tmax nb b) due) in *.
  assert (NE : forall (A : Type) (g : comparison -> A), sel <> [] -> map g sel <> []) by (intros A g X Y; apply X; destruct sel; [reflexivity|discriminate]).
  assert (LAG : forall c, In c due -> 1 <= lag c <= H - 1) by (intros c Hc; unfold allCompared in Hc; apply in_flat_map in Hc; destruct Hc as (id & _ & Hc); pose proof (compared_lags _ _ _ Hc); lia).
  assert (HL : zlen (ms_hcounts ms) = H).
  { destruct (run_inv H nb tmax size n track ca cb cc start steps H1 Hnb Ht Hs Hf) as (ms' & log & t & E' & I). rewrite E in E'. injection E' as <-. apply (mf_lhcounts _ _ _ _ _ _ _ _ _ _ (mi_fits _ _ _ _ _ _ _ _ _ _ _ _ _ I)). }
  assert (HM : sel <> [] -> (1 <= m)%Q).
  { intros X. apply (isMean_ge (map lag sel)); [apply L1; apply NE; exact X|]. intros v Hv. apply in_map_iff in Hv. destruct Hv as (c & <- & Hc). apply filter_In in Hc. apply LAG. apply Hc. }
  set (K := tally (fun c => lag c =? Qfloor m + 2) due).
  assert (K0 : 0 <= K) by apply zlen_nonneg.
  assert (FB : exists o, binFactor ms m = Some o /\ (sel <> [] -> 0 < K -> o = Some (devFactor (Q2R m) K)) /\ (sel = [] \/ K = 0 -> o = None)).
  { unfold binFactor. destruct (list_eq_dec (fun x y : comparison => ltac:(repeat decide equality)) sel []) as [X|X].
    - assert (M0 : (m == 0)%Q) by (apply L2; rewrite X; reflexivity). assert (Y : Qle_bool m (1 # 1000000000000) = true) by (apply Qle_bool_iff; rewrite M0; discriminate). rewrite Y, Bool.andb_false_r. exists None. split; [reflexivity|]. split; [intros Z0; contradiction|reflexivity].
    - specialize (HM X). assert (Y : Qle_bool m (1 # 1000000000000) = false). { destruct (Qle_bool m (1 # 1000000000000)) eqn:Y; [|reflexivity]. exfalso. apply Qle_bool_iff in Y. pose proof (Qle_trans _ _ _ HM Y) as W. unfold Qle in W. cbn in W. lia. }
      assert (MP : (0 <= m)%Q) by (apply (Qle_trans _ 1); [discriminate|exact HM]). rewrite Y, countIndex_floor, HL by exact MP. cbn [negb]. rewrite Bool.andb_true_r. assert (F0 : 0 <= Qfloor m) by (apply (Qfloor_resp_le 0 m) in MP; exact MP).
      destruct (Z.ltb_spec (Qfloor m + 1) H) as [W|W].
      + destruct (C39_lags H nb tmax size n track ca cb cc start steps H1 Hnb Ht Hs Hf ms (Qfloor m + 1) E) as [C _]. rewrite C by lia. replace (Qfloor m + 1 + 1) with (Qfloor m + 2) by ring. fold K. cbn [Base.obind].
        destruct (Z.ltb_spec 0 K) as [V|V]; eexists; (split; [reflexivity|]); split; intros; try reflexivity; try lia. destruct H0; [contradiction|lia].
      + exists None. split; [reflexivity|]. split; [|reflexivity]. intros _ HK. exfalso. assert (Z0 : K = 0); [|lia]. unfold K, tally. replace (filter _ due) with (@nil comparison); [reflexivity|]. symmetry.
        clear - LAG W. induction due as [|c l IH]; [reflexivity|]. cbn [filter]. pose proof (LAG c (or_introl eq_refl)). replace (lag c =? Qfloor m + 2) with false by lia. apply IH. intros; apply LAG; right; assumption. }
  destruct FB as (o & FB1 & FB2 & FB3). exists row, q, neff, m, (match o with Some factor => dimFactor r (Q2R q * factor)%R | None => 0%R end).
  split; [exact R1|]. split; [exact R3|]. split; [exact N1|]. split; [exact N4|]. split. { unfold msStdDev. rewrite N1. cbn [Base.obind]. rewrite N4. cbn [Base.obind]. rewrite R1. cbn [Base.obind]. rewrite R3. cbn [Base.obind]. rewrite FB1. destruct o; reflexivity. }
  split; [intros X; split; [apply M1; apply NE; exact X|apply L1; apply NE; exact X]|]. split.
  - intros X HK. rewrite (FB2 X HK). specialize (HM X). assert (MR : (0 < Q2R m)%R). { apply (Rlt_le_trans _ 1); [lra|]. replace 1%R with (Q2R 1) by (unfold Q2R; cbn; lra). apply Qle_Rle. exact HM. }
    assert (QR : (0 <= Q2R q)%R). { replace 0%R with (Q2R 0) by (unfold Q2R; cbn; lra). apply Qle_Rle. apply (isMean_ge (map (fun c => f (squared ca cb cc c)) sel)); [apply M1; apply NE; exact X|]. intros v Hv. apply in_map_iff in Hv. destruct Hv as (c & <- & _).
      apply zget_In in Hd. unfold squared. set (w := cartesian _ _ _ _). assert (0 <= cx (squares w) /\ 0 <= cy (squares w) /\ 0 <= cz (squares w)) by (unfold squares; cbn [cx cy cz]; rewrite !Z.pow_2_r; split; [|split]; apply Z.square_nonneg). cbn [directions In] in Hd. intuition (subst f; lia). }
    destruct (devFactor_ok (Q2R m) K MR HK) as [D1 D2]. destruct (dimFactor_ok r (Q2R q * devFactor (Q2R m) K)) as [D3 D4]; [apply Rmult_le_pos; assumption|]. split; [exact D3|]. rewrite D4, Rpow_mult_distr, D2. reflexivity.
  - intros X. rewrite (FB3 X). reflexivity.
Qed.
(** With up to three history steps every standard deviation is 0. *)
Theorem C76_short_history ms r f b : run = Some ms -> zget directions r = Some f -> 0 <= b < nb -> H <= 3 -> msStdDev ms r b = Some 0%R.
Proof.
  intros E Hd Hb H3. destruct (C76_deviation ms r f b E Hd Hb) as (row & q & neff & m & s & _ & _ & _ & _ & ES & M & _ & Z0). rewrite ES. f_equal. apply Z0. set (sel := filter (fallsIn tmax nb b) due) in *. destruct sel as [|c0 sel'] eqn:Es; [left; reflexivity|right].
  assert (LAG : forall c, In c due -> 1 <= lag c <= H - 1) by (intros c Hc; unfold allCompared in Hc; apply in_flat_map in Hc; destruct Hc as (id & _ & Hc); pose proof (compared_lags _ _ _ Hc); lia).
  destruct (M ltac:(discriminate)) as [_ ML]. assert (HM : (1 <= m)%Q). { apply (isMean_ge _ _ _ ML). intros v Hv. apply in_map_iff in Hv. destruct Hv as (c & <- & Hc). rewrite <- Es in Hc. apply filter_In in Hc. apply LAG. apply Hc. }
  apply (Qfloor_resp_le 1 m) in HM. change (Qfloor 1) with 1 in HM. unfold tally. replace (filter _ due) with (@nil comparison); [reflexivity|]. symmetry.
  clear - LAG HM H3. induction due as [|c l IH]; [reflexivity|]. cbn [filter]. pose proof (LAG c (or_introl eq_refl)). replace (lag c =? Qfloor m + 2) with false by lia. apply IH. intros; apply LAG; right; assumption.
Qed.
End C76.

(** *** Examples *)
Definition xvDue (H : Z) := allCompared (H - 1) 2 (fun id => stops "A" id xmStart xmSteps).
Definition xvRun (H : Z) := msRun H 5 20 "A" (transpose3 (mkC 2 0 0) (mkC 0 1 0) (mkC 0 0 1)) 2 xmStart xmSteps.
Lemma xv_ok : (forall o, In o (xmStart :: xmSteps) -> nAtoms 2 o) /\ forwards (fst xmStart) (map fst xmSteps).
Proof. destruct C39_example as (ms & _ & A & B & _). split; assumption. Qed.
(** the atom that hops three times, with five history steps: bin 1 holds two hops of one step each, and there are comparisons over three steps *)
Example C76_example : exists ms q neff s, xvRun 5 = Some ms /\ zget directions 0 = Some cx /\ msNeff ms = Some neff /\ zget neff 1 = Some (2 # 2)%Q /\ msStdDev ms 0 1 = Some s /\
  filter (fallsIn 20 5 1) (xvDue 5) <> [] /\ 0 < tally (fun c => lag c =? Qfloor (2 # 2) + 2) (xvDue 5) /\ isDeviation 0 (Q2R q) (Q2R (2 # 2)) 1 s /\ (q == 2)%Q.
Proof.
  destruct xv_ok as [A B]. assert (X : option_map (fun ms => (msNeff ms, zget (msResults ms) 0)) (xvRun 5) = Some (Some [0%Q; 2 # 2; 2%Q; 0%Q; 0%Q], Some [0%Q; 4 # 2; 4%Q; 0%Q; 0%Q])%Q) by (vm_compute; reflexivity).
  destruct (xvRun 5) as [ms|] eqn:E; [|discriminate]. assert (X1 : msNeff ms = Some [0; 2 # 2; 2; 0; 0]%Q) by (cbn [option_map] in X; congruence). assert (X2 : zget (msResults ms) 0 = Some [0; 4 # 2; 4; 0; 0]%Q) by (cbn [option_map] in X; congruence).
  destruct (C76_deviation 5 5 20 2 2 "A" (mkC 2 0 0) (mkC 0 1 0) (mkC 0 0 1) xmStart xmSteps ltac:(lia) ltac:(lia) ltac:(lia) A B ms 0 cx 1 E eq_refl ltac:(lia)) as (row & q & neff & m & s & R1 & R2 & N1 & N2 & ES & _ & D & _).
  rewrite X1 in N1. injection N1 as <-. rewrite X2 in R1. injection R1 as <-. injection R2 as <-. injection N2 as <-. exists ms, (4 # 2)%Q, [0%Q; (2 # 2)%Q; 2%Q; 0%Q; 0%Q], s.
  split; [reflexivity|]. split; [reflexivity|]. split; [exact X1|]. split; [reflexivity|]. split; [exact ES|].
  assert (NE : filter (fallsIn 20 5 1) (xvDue 5) <> []) by (vm_compute; discriminate). assert (EK : tally (fun c => lag c =? Qfloor (2 # 2) + 2) (xvDue 5) = 1) by (vm_compute; reflexivity).
  split; [exact NE|]. split; [rewrite EK; lia|]. split; [|reflexivity]. specialize (D NE). change (allCompared (5 - 1) 2 (fun id => stops "A" id xmStart xmSteps)) with (xvDue 5) in D. rewrite EK in D. apply D. lia.
Qed.
(** For displacements of one step each the error factor is 1/K (independent displacements); two-step displacements share steps. *)
Example C76_one_step K : 1 <= K -> errorFactor 1 (IZR K) = (1 / IZR K)%R.
Proof. intros HK. assert (1 <= IZR K)%R by (apply IZR_le; lia). unfold errorFactor. destruct (Rle_dec 1 (IZR K)); [field; lra|lra]. Qed.
Example C76_two_steps : overlap 2 3 = (1 / 2 - 1 / 18)%R.
Proof. unfold overlap. change (pairSum 2 3) with 16. field. Qed.

(** ** The number of displacements *)
(** The K of the formula should be the number of displacements of the number of steps in question.  It is not: here all comparisons in the bin are over one step and
    there are three such comparisons in the run, but the deviation is that of a mean over one displacement; with three history steps it is 0. *)
Theorem C76_count_refuted : forall H, H = 5 \/ H = 3 -> exists nb tmax size n track ca cb cc start steps ms b q s,
  (forall o, In o (start :: steps) -> nAtoms n o) /\ forwards (fst start) (map fst steps) /\ 0 < tmax /\ 0 <= b < nb /\
  msRun H nb tmax track (transpose3 ca cb cc) size start steps = Some ms /\
  let due := allCompared (H - 1) n (fun id => stops track id start steps) in
  let inBin := filter (fallsIn tmax nb b) due in
  inBin <> [] /\ (forall c, In c inBin -> lag c = 1) /\ isMean (map (fun c => cx (squared ca cb cc c)) inBin) q /\ msStdDev ms 0 b = Some s /\
  tally (fun c => lag c =? 1) due = 3 /\ ~ isDeviation 0 (Q2R q) 1 (IZR (tally (fun c => lag c =? 1) due)) s.
Proof.
  intros H HH. destruct xv_ok as [A B]. exists 5, 20, 2, 2, "A", (mkC 2 0 0), (mkC 0 1 0), (mkC 0 0 1), xmStart, xmSteps. fold (xvRun H). change (allCompared (H - 1) 2 (fun id => stops "A" id xmStart xmSteps)) with (xvDue H).
  assert (X : option_map (fun ms => zget (msResults ms) 0) (xvRun H) = Some (Some [0%Q; 4 # 2; 4%Q; 0%Q; 0%Q])%Q) by (destruct HH as [-> | ->]; vm_compute; reflexivity).
  assert (X' : option_map (fun ms => msNeff ms) (xvRun H) = Some (Some [0%Q; 2 # 2; 2%Q; 0%Q; 0%Q])%Q) by (destruct HH as [-> | ->]; vm_compute; reflexivity).
  destruct (xvRun H) as [ms|] eqn:E; [|discriminate]. cbn [option_map] in X, X'. assert (X1 : zget (msResults ms) 0 = Some [0; 4 # 2; 4; 0; 0]%Q) by congruence. assert (X2 : msNeff ms = Some [0; 2 # 2; 2; 0; 0]%Q) by congruence.
  assert (H1 : 1 <= H) by lia.
  destruct (C76_deviation H 5 20 2 2 "A" (mkC 2 0 0) (mkC 0 1 0) (mkC 0 0 1) xmStart xmSteps H1 ltac:(lia) ltac:(lia) A B ms 0 cx 1 E eq_refl ltac:(lia)) as (row & q & neff & m & s & R1 & R2 & N1 & N2 & ES & M & D & Z0).
  change (allCompared (H - 1) 2 (fun id => stops "A" id xmStart xmSteps)) with (xvDue H) in M, D, Z0.
  rewrite X1 in R1. injection R1 as <-. injection R2 as <-. rewrite X2 in N1. injection N1 as <-. injection N2 as <-.
  assert (NE : filter (fallsIn 20 5 1) (xvDue H) <> []) by (destruct HH as [-> | ->]; vm_compute; discriminate).
  assert (TL : tally (fun c => lag c =? 1) (xvDue H) = 3) by (destruct HH as [-> | ->]; vm_compute; reflexivity).
  exists ms, 1, (4 # 2)%Q, s. split; [exact A|]. split; [exact B|]. split; [lia|]. split; [lia|]. split; [reflexivity|]. cbv zeta. split; [exact NE|]. split.
  { intros c Hc. assert (F : forallb (fun c => lag c =? 1) (filter (fallsIn 20 5 1) (xvDue H)) = true) by (destruct HH as [-> | ->]; vm_compute; reflexivity). rewrite forallb_forall in F. apply Z.eqb_eq. apply F. exact Hc. }
  split; [apply (M NE)|]. split; [exact ES|]. split; [exact TL|]. rewrite TL. intros [_ D3]. assert (Q4 : Q2R (4 # 2) = 2%R) by (unfold Q2R; cbn; lra). assert (Q2' : Q2R (2 # 2) = 1%R) by (unfold Q2R; cbn; lra).
  rewrite Q4 in *. rewrite C76_one_step in D3 by lia. change (dimensions 0) with 1%R in D3. destruct HH as [-> | ->].
  - assert (EK : tally (fun c => lag c =? Qfloor (2 # 2) + 2) (xvDue 5) = 1) by (vm_compute; reflexivity). rewrite EK in D. destruct (D NE ltac:(lia)) as [_ D1]. rewrite Q2', C76_one_step in D1 by lia. change (dimensions 0) with 1%R in D1. lra.
  - rewrite Z0 in D3; [lra|right; vm_compute; reflexivity].
Qed.

Print Assumptions C76_formula. Print Assumptions C76_positive. Print Assumptions C76_deviation. Print Assumptions C76_short_history. Print Assumptions C76_count_refuted.
