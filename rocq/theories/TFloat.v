(** C56: the cell of a site in double precision.  C57: total rates in double precision. *)
From Coq Require Import Reals Psatz.
From Flocq Require Import Core BinarySingleNaN.
From Verif Require Import PBase SLattice SModel SBucket SFloat PFloat PDrift PDrift2 PLattice PProcess PSelect PStep PRun XCheck XSystems XRows TSelect.
From Coq Require Import ZifyBool.
Open Scope list_scope.
Open Scope Z_scope.

(** ** C56 *)
Lemma cell_facts L i j k b : wf_lattice L -> isSite L i j k b -> nsites L < 2 ^ 31 -> let m := (i * lt_rb L + j) * lt_rc L + k in
  0 < lt_rb L * lt_rc L < 2 ^ 31 /\ i * (lt_rb L * lt_rc L) < m + 1 <= (i + 1) * (lt_rb L * lt_rc L) /\ (i + 1) * (lt_rb L * lt_rc L) < 2 ^ 31 /\ (j + 1) * lt_rc L <= lt_rb L * lt_rc L /\ 0 <= m /\
  Z.quot (m * lt_nb L + b) (lt_nb L) = m.
Proof.
  intros [W1 W2 W3 W4 W5] (Hi & Hj & Hk & Hb) HN m. unfold nsites in HN.
  assert (F0 : 0 < lt_rb L * lt_rc L) by nia.
  assert (FI : (i + 1) * (lt_rb L * lt_rc L) <= lt_ra L * lt_rb L * lt_rc L * lt_nb L).
  { transitivity (lt_ra L * (lt_rb L * lt_rc L)); [nia|]. assert (0 <= lt_ra L * (lt_rb L * lt_rc L)) by nia. nia. }
  assert (FJ : (j + 1) * lt_rc L <= lt_rb L * lt_rc L) by nia. assert (FK : 0 <= j * lt_rc L) by nia. assert (FI0 : 0 <= i * (lt_rb L * lt_rc L)) by nia.
  assert (Em : m = i * (lt_rb L * lt_rc L) + j * lt_rc L + k) by (unfold m; ring).
  split; [nia|]. split; [rewrite Em; nia|]. split; [lia|]. split; [exact FJ|]. split; [rewrite Em; lia|]. rewrite Z.quot_div_nonneg by nia. symmetry. apply (Z.div_unique_pos _ _ _ b); [lia|ring].
Qed.
(** On every lattice whose sites are numbered by an int, the cell of every site up to the 2^24th cell is computed correctly in double
    precision: site b of cell (i,j,k) has number ((i rb + j) rc + k) nb + b. *)
Theorem C56_exact L i j k b : wf_lattice L -> nsites L < 2 ^ 31 -> isSite L i j k b ->
  (i * lt_rb L + j) * lt_rc L + k < 2 ^ 24 -> fIndexToCell L (((i * lt_rb L + j) * lt_rc L + k) * lt_nb L + b) = (i, j, k).
Proof.
  intros WF HN HS H24. destruct (cell_facts L i j k b WF HS HN) as (F1 & F2 & F3 & F4 & F5 & F6). destruct WF as [W1 W2 W3 W4 W5]. destruct HS as (Hi & Hj & Hk & Hb).
  unfold fIndexToCell. rewrite F6. set (m := (i * lt_rb L + j) * lt_rc L + k) in *. set (f := lt_rb L * lt_rc L) in *.
  assert (HC : forall n g q, 1 <= n <= 2 ^ 24 -> 1 <= g < 2 ^ 31 -> 0 <= q <= 2 ^ 40 -> q * g < n -> n <= (q + 1) * g -> (q + 1) * g <= 2 ^ 53 -> toInt (fdiv (fsub (ofInt n) feps) (ofInt g)) = q).
  { intros n g q Hn Hg Hq Q1 Q2 Q3. destruct (sub_eps n) as (Fx & Bx & _); [lia|]. apply (div_cell _ n); auto; try lia; [apply Bx|]. apply sub_eps_below. lia. }
  assert (Ii : i < 2 ^ 31) by nia.
  rewrite (HC (m + 1) f i) by lia. assert (Em : m = i * f + j * lt_rc L + k) by (unfold m, f; ring).
  replace (m + 1 - i * f) with (j * lt_rc L + k + 1) by lia. assert (0 <= j * lt_rc L) by nia. assert (0 <= i * f) by nia. assert (j < 2 ^ 31) by nia. assert (lt_rc L <= f) by (unfold f; nia).
  rewrite (HC _ (lt_rc L) j) by lia. replace (m + 1 - (i * f + j * lt_rc L)) with (k + 1) by lia. f_equal.
  destruct (sub_eps (k + 1)) as (Fx & Bx & _); [lia|]. apply toInt_floor; [lia|]. split; [replace k with (k + 1 - 1) at 1 by ring; apply Bx|]. rewrite <- plus_IZR. apply sub_eps_below. lia.
Qed.
(** In this range it is the computation the model uses. *)
Theorem C56_model L x : wf_lattice L -> nsites L < 2 ^ 31 -> 0 <= x < nsites L -> x < 2 ^ 24 * lt_nb L -> fIndexToCell L x = indexToCell L x.
Proof.
  intros WF HN Hx H24. destruct (site_of_index L WF x Hx) as (i & j & k & b & HS & ->). rewrite (indexToCell_global L WF) by exact HS.
  replace (globalIndex L i j k b) with (((i * lt_rb L + j) * lt_rc L + k) * lt_nb L + b) in * by (unfold globalIndex, cellBase; ring).
  apply C56_exact; auto. pose proof HS as (? & ? & ? & ?). destruct WF as [W1 ? ? ? ?]. nia.
Qed.
(** Beyond, the small number subtracted before the division is lost, and the last cell of every plane gets the next plane's number. *)
Theorem C56_lost L i j k b : wf_lattice L -> nsites L < 2 ^ 31 -> isSite L i j k b -> 2 ^ 24 <= (i * lt_rb L + j) * lt_rc L + k ->
  j = lt_rb L - 1 -> k = lt_rc L - 1 -> fIndexToCell L (((i * lt_rb L + j) * lt_rc L + k) * lt_nb L + b) <> (i, j, k) /\
  fst (fst (fIndexToCell L (((i * lt_rb L + j) * lt_rc L + k) * lt_nb L + b))) = i + 1.
Proof.
  intros WF HN HS H24 Ej Ek. destruct (cell_facts L i j k b WF HS HN) as (F1 & F2 & F3 & F4 & F5 & F6). destruct WF as [W1 W2 W3 W4 W5]. destruct HS as (Hi & Hj & Hk & Hb).
  assert (HG : fst (fst (fIndexToCell L (((i * lt_rb L + j) * lt_rc L + k) * lt_nb L + b))) = i + 1); [|split; [intros E; rewrite E in HG; cbn [fst] in HG; lia|exact HG]].
  unfold fIndexToCell. rewrite F6. cbn [fst]. set (m := (i * lt_rb L + j) * lt_rc L + k) in *. set (f := lt_rb L * lt_rc L) in *.
  assert (Em : m + 1 = (i + 1) * f) by (unfold m, f; subst j k; ring).
  destruct (sub_eps (m + 1)) as (Fx & _ & _); [lia|]. pose proof (sub_eps_lost (m + 1)) as EV. destruct (int_val f) as [V2 Ff]; [lia|]. assert (i < 2 ^ 31) by nia.
  assert (Hf : (0 < IZR f)%R) by (apply IZR_lt; lia). assert (ED : (IZR (m + 1) / IZR f = IZR (i + 1))%R) by (rewrite Em, mult_IZR; field; lra).
  assert (ER : rn (IZR (m + 1) / IZR f) = IZR (i + 1)) by (rewrite ED; apply rn_id, F_int; lia).
  destruct (div_val (fsub (ofInt (m + 1)) feps) (ofInt f) Fx) as [V _]; [rewrite V2; lra|rewrite EV, V2, ER by lia; apply small_abs; [rewrite <- abs_IZR; apply IZR_le; lia|lia]|].
  apply toInt_floor; [lia|]. rewrite V, EV, V2, ER by lia. lra.
Qed.
Definition c56L : lattice := mkLat 1 300 300 300 true true true 10.
Example C56_example : wf_lattice c56L /\ nsites c56L < 2 ^ 31 /\ isSite c56L 186 123 7 0 /\ (186 * 300 + 123) * 300 + 7 < 2 ^ 24 /\ fIndexToCell c56L 16776907 = (186, 123, 7) /\ indexToCell c56L 16776907 = (186, 123, 7).
Proof. repeat split; vm_compute; first [reflexivity|discriminate]. Qed.
Theorem C56_refuted : exists L i j k b, wf_lattice L /\ nsites L < 2 ^ 31 /\ isSite L i j k b /\ fIndexToCell L (((i * lt_rb L + j) * lt_rc L + k) * lt_nb L + b) = (i + 1, 0, 0) /\ (j, k) <> (0, 0).
Proof. exists c56L, 199, 299, 299, 0. repeat split; try (vm_compute; first [reflexivity|discriminate]). Qed.

(** ** C57 *)
(** After any history of additions, removals and clearings with finite rates, in which the total rate stays below 2^k: the total rate kept
    by the process differs from the sum of the rates of its sites by at most 2^(k-54) for every addition or removal since the last
    clearing. *)
Theorem C57_drift k n p : -1021 <= k -> history fin (fun p => fin (fp_total p) /\ (Rabs (val (fp_total p)) < bpow radix2 k)%R) n p ->
  (Rabs (val (fp_total p) - exactTotal p) <= IZR n * bpow radix2 (k - 54))%R.
Proof. intros Hk H. apply drift_bound; assumption. Qed.
(** Rates which are multiples of a power of two, with sums of at most 2^53 of these units: no drift at all.  In particular the total rate
    of a process without available sites is zero. *)
Theorem C57_grid e n p : -1074 <= e <= 900 -> history (fun r => exists z, 0 <= z /\ asDouble e z r) (fun p => (exactTotal p <= IZR (2 ^ 53) * bpow radix2 e)%R) n p ->
  fin (fp_total p) /\ val (fp_total p) = exactTotal p /\ (fp_sites p = [] -> val (fp_total p) = 0%R).
Proof.
  intros He H. destruct (grid_total e n p He H) as (H1 & H2 & _). split; [exact H1|]. split; [exact H2|]. intros E. rewrite H2.
  destruct (history_WF (fun r => exists z, 0 <= z /\ asDouble e z r) _ _ _ ltac:(intros r (z & _ & Hz & _); exact Hz) H) as [W _]. unfold exactTotal, listedRates. rewrite E. destruct (fp_custom p) eqn:EC; [|reflexivity].
  pose proof (fw_len _ _ W EC) as HL. rewrite E in HL. destruct (fp_srates p); [reflexivity|discriminate].
Qed.
(** Under the same conditions every operation on a process of the model, whose rates are integers, and on the process with doubles have the
    same effect. *)
Theorem C57_operations e p fp : -900 <= e <= 900 -> sameRates e p fp -> (exists rs, siteRates p = Some rs /\ Forall (fun r => 0 <= r) rs /\ zsum rs <= 2 ^ 53) ->
  (forall i r m fr fm, asDouble e r fr -> asDouble 0 m fm -> Z.abs (m * (if pr_custom p then r else pr_rate p)) <= 2 ^ 53 -> Z.abs (pr_total (addSite p i r m)) <= 2 ^ 53 ->
     sameRates e (addSite p i r m) (faddSite fp i fr fm)) /\
  (forall i p', removeSite p i = Some p' -> Z.abs (pr_total p') <= 2 ^ 53 -> exists fp', fremoveSite fp i = Some fp' /\ sameRates e p' fp') /\
  (forall p', updateRateTable p = Some p' -> exists fp', fupdateRateTable fp = Some fp' /\ sameRates e p' fp') /\
  sameRates e (clearSites p) (fclearSites fp).
Proof.
  intros He SR HB. split; [intros; apply same_add; assumption|]. split; [intros i p' H1 H2; apply (same_remove e He p fp i p' SR HB H1 H2)|].
  split; [intros p' H; apply (same_table e He p fp p' SR HB H)|apply same_clear; assumption].
Qed.
(** And in every state of every simulation the selection in double precision succeeds and selects an available event with a positive
    rate.  u and v are the two deviates. *)
Theorem C57_selection e ranks hash L cf it md T fps u v : -900 <= e <= 900 -> wfInput ranks L cf it -> reachable ranks hash L cf it md -> ratesOK md ->
  totalRate (md_in md) = Some T -> T <= 2 ^ 53 -> Forall2 (sameRates e) (in_procs (md_in md)) fps ->
  fin u -> (bpow radix2 (-64) <= val u <= 1)%R -> fin v -> (bpow radix2 (-64) <= val v <= 1)%R ->
  exists i x r, fpickEvent fps u v = Some (i, x) /\ evt (md_in md) i x r /\ 0 < r.
Proof.
  intros He WI HR OK ET HT HF Fu Hu Fv Hv. destruct (reachable_info _ _ _ _ _ _ WI HR) as (cf1 & it2 & RI). pose proof (ri_inv _ _ _ _ _ _ _ _ RI) as IV.
  destruct (rates_facts md IV OK) as (EP & HN & HS). set (ps := in_procs (md_in md)) in *.
  assert (NN : Forall (fun p => 0 <= pr_total p) ps) by (rewrite Forall_forall; intros p Hp; assert (Q : In (pr_total p) (map pr_total ps)) by (apply in_map; exact Hp); rewrite EP in Q; apply in_map_iff in Q; destruct Q as (q & <- & Hq); apply HN; exact Hq).
  assert (NE : ps <> []) by (intros E0; rewrite E0 in HS; cbn in HS; lia).
  assert (TS : T = zsum (map pr_total ps)) by (pose proof (totalRate_sum (md_in md) (iv_table _ IV) NE) as Q; unfold ps; congruence).
  destruct (same_pickProcess e He ps fps u HF NN) as (d1 & Hd1 & HP1); auto; [rewrite <- TS; split; [|exact HT]; rewrite TS, EP; exact HS|].
  specialize (HP1 (md_in md) eq_refl (iv_table _ IV)). assert (H11 : 0 < dv_num (mkDev 1 1) <= dv_den (mkDev 1 1)) by (cbn; lia).
  destruct (C14_selection_succeeds _ _ _ _ _ _ d1 (mkDev 1 1) WI HR OK Hd1 H11) as (i & it' & q & x0 & S1 & S2 & S3).
  destruct (C14_selected_is_available _ _ _ _ _ _ _ _ _ _ _ _ WI HR OK Hd1 H11 S1 S2 S3) as (r0 & (p & Ep & Hin) & Hr0).
  pose proof S1 as S1'. unfold pickProcess in S1'. ob S1' as j Ej. ob S1' as p2 Ep2. ob S1' as p' Ep'. ob S1' as ps' Eps. injection S1' as -> <-.
  cbn [set_procs in_procs] in S2. rewrite (zset_get _ _ _ _ _ Eps), Z.eqb_refl in S2. injection S2 as ->. fold ps in Ep, Ep2. assert (p2 = p) by congruence. subst p2.
  pose proof (bi_proc _ _ (iv_binv _ IV) i p Ep) as PI. pose proof (siteRates_prates p PI) as ESR.
  assert (EV : map snd (events p) = prates p) by (unfold events; pose proof (pi_rates _ PI) as HL0; revert HL0; generalize (prates p), (pr_sites p); clear; intros l m; revert l; induction m as [|a m IH]; intros [|b l] HL; try discriminate HL; [reflexivity|]; cbn [combine map snd]; f_equal; apply IH; injection HL; auto).
  assert (PN : forall r, In r (prates p) -> 0 <= r) by (intros r Hr; rewrite <- EV in Hr; apply in_map_iff in Hr; destruct Hr as ([y s] & <- & Hy); apply (proj1 OK i y s); exists p; auto).
  assert (HSP : zsum (prates p) <= 2 ^ 53).
  { rewrite <- EV, <- (pi_total _ PI). assert (Q : In (pr_total p) (map pr_total ps)) by (apply in_map; eapply zget_In; eauto).
    assert (NN' : Forall (fun r => 0 <= r) (map pr_total ps)) by (rewrite Forall_forall in *; intros a Ha; apply in_map_iff in Ha; destruct Ha as (y & <- & Hy); auto). pose proof (zsum_le _ _ NN' Q). lia. }
  assert (HB : exists rs, siteRates p = Some rs /\ Forall (fun r => 0 <= r) rs /\ zsum rs <= 2 ^ 53) by (exists (prates p); rewrite Forall_forall; auto).
  destruct (F2_zget _ _ _ _ HF _ Ep) as (fp & Efp & SR). destruct (same_table e He p fp q SR HB Ep') as (fq & Efq & SRq).
  assert (HL : exists t, zget (pr_inc q) (zlen (pr_inc q) - 1) = Some t /\ 0 < t <= 2 ^ 53).
  { pose proof S3 as S3'. unfold pickSite in S3'. ob S3' as t Et. exists t. split; [exact Et|]. unfold updateRateTable in Ep'. rewrite ESR in Ep'. cbn [Base.obind] in Ep'. injection Ep' as <-. cbn [set_inc pr_inc] in Et.
    apply incTable_last in Et. subst t. split; [|exact HSP]. assert (In r0 (prates p)) by (rewrite <- EV; apply in_map_iff; exists (x0, r0); auto).
    assert (PN' : Forall (fun r => 0 <= r) (prates p)) by (rewrite Forall_forall; exact PN). pose proof (zsum_le _ _ PN' H). lia. }
  destruct (same_pickSite e He q fq v SRq HL Fv Hv) as (d2 & Hd2 & HP2).
  destruct (C14_selection_succeeds _ _ _ _ _ _ d1 d2 WI HR OK Hd1 Hd2) as (i' & it' & q' & x & R1 & R2 & R3).
  rewrite S1 in R1. injection R1 as <- <-. cbn [set_procs in_procs] in R2. rewrite (zset_get _ _ _ _ _ Eps), Z.eqb_refl in R2. injection R2 as <-.
  assert (R2 : zget (in_procs (set_procs (md_in md) ps')) i = Some q) by (cbn [set_procs in_procs]; rewrite (zset_get _ _ _ _ _ Eps), Z.eqb_refl; reflexivity).
  destruct (C14_selected_is_available _ _ _ _ _ _ _ _ _ _ _ _ WI HR OK Hd1 Hd2 S1 R2 R3) as (r & Hr & Hr0').
  exists i, x, r. split; [|auto]. unfold fpickEvent. rewrite HP1, Ej. cbn [Base.obind]. rewrite Efp. cbn [Base.obind]. rewrite Efq. cbn [Base.obind]. rewrite HP2, R3. reflexivity.
Qed.

(** *** examples and counterexamples *)
Inductive fop := OAdd (i : Z) (r : f64) | ORem (i : Z) | OClr | OTab.
Definition fstep (np : Z * fproc) (o : fop) : option (Z * fproc) :=
  match o with
  | OAdd i r => Some (fst np + 1, faddSite (snd np) i r fone)
  | ORem i => p <- fremoveSite (snd np) i ;; Some (fst np + 1, p)
  | OClr => Some (0, fclearSites (snd np))
  | OTab => p <- fupdateRateTable (snd np) ;; Some (fst np, p)
  end.
Fixpoint frun (okb : fproc -> bool) (np : Z * fproc) (os : list fop) : option (Z * fproc) :=
  match os with
  | [] => Some np
  | o :: os' => np' <- fstep np o ;; if match o with OAdd _ r => is_finite r && okb (snd np') | ORem _ => okb (snd np') | _ => true end then frun okb np' os' else None
  end.
Lemma frun_sound (okb : fproc -> bool) (ok : fproc -> Prop) custom rate os n p : (forall p, okb p = true -> ok p) -> is_finite rate = true -> frun okb (0, mkFP custom rate [] [] [] [] fzero) os = Some (n, p) -> history fin ok n p.
Proof.
  intros HO HR. assert (H0 : history fin ok (fst (0, mkFP custom rate [] [] [] [] fzero)) (snd (0, mkFP custom rate [] [] [] [] fzero))) by (constructor; exact HR).
  revert H0. generalize (0, mkFP custom rate [] [] [] [] fzero). induction os as [|o os IH]; intros np H0 E; cbn [frun] in E; [injection E as ->; exact H0|]. ob E as np' E'.
  apply (IH np'); [|destruct o; cbn beta iota in E; try exact E; match type of E with (if ?b then _ else _) = _ => destruct b; [exact E|discriminate E] end].
  destruct o as [i r|i| |]; cbn [fstep] in E'.
  - injection E' as <-. cbn [fst snd] in *. destruct (is_finite r) eqn:Er; [|discriminate E]. destruct (okb (faddSite (snd np) i r fone)) eqn:Eo; [|discriminate E]. apply hi_add; auto.
  - ob E' as p' Ep. injection E' as <-. cbn [fst snd] in *. destruct (okb p') eqn:Eo; [|discriminate E]. eapply hi_remove; eauto.
  - injection E' as <-. cbn [fst snd]. eapply hi_clear; eauto.
  - ob E' as p' Ep. injection E' as <-. cbn [fst snd]. eapply hi_table; eauto.
Qed.
Definition belowb (k : Z) (p : fproc) : bool := is_finite (fp_total p) && flt (fp_total p) (flit 1 k) && flt (flit (-1) k) (fp_total p).
Lemma belowb_sound k p : -1000 <= k <= 900 -> belowb k p = true -> fin (fp_total p) /\ (Rabs (val (fp_total p)) < bpow radix2 k)%R.
Proof.
  intros Hk H. unfold belowb in H. rewrite !andb_true_iff in H. destruct H as [[H1 H2] H3]. destruct (lit_val 1 k) as [V1 F1]; [lia|cbn; lia|lia|]. destruct (lit_val (-1) k) as [V2 F2]; [lia|cbn; lia|lia|].
  split; [exact H1|]. apply flt_val in H2; [|exact H1|exact F1]. apply flt_val in H3; [|exact F2|exact H1]. rewrite V1 in H2. rewrite V2 in H3. apply Rabs_def1; lra.
Qed.
(** doubles compared bit by bit *)
Definition sfEqb (x y : f64) : bool :=
  match B2SF x, B2SF y with
  | SpecFloat.S754_zero s, SpecFloat.S754_zero t => Bool.eqb s t
  | SpecFloat.S754_infinity s, SpecFloat.S754_infinity t => Bool.eqb s t
  | SpecFloat.S754_finite s m e, SpecFloat.S754_finite t n f => Bool.eqb s t && Pos.eqb m n && (e =? f)
  | _, _ => false
  end.
Lemma sfEqb_sound x y : sfEqb x y = true -> x = y.
Proof.
  intros H. apply B2SF_inj. unfold sfEqb in H. destruct (B2SF x), (B2SF y); try discriminate H; rewrite ?andb_true_iff in H.
  - apply Bool.eqb_prop in H. congruence.
  - apply Bool.eqb_prop in H. congruence.
  - destruct H as [[H1 H2] H3]. apply Bool.eqb_prop in H1. apply Pos.eqb_eq in H2. apply Z.eqb_eq in H3. congruence.
Qed.
Definition frunCheck (okb : fproc -> bool) (custom : bool) (rate : f64) (os : list fop) (n : Z) (sites : list Z) (chk : fproc -> bool) : bool :=
  is_finite rate && match frun okb (0, mkFP custom rate [] [] [] [] fzero) os with Some (k, p) => (k =? n) && (if list_eq_dec Z.eq_dec (fp_sites p) sites then true else false) && chk p | None => false end.
Lemma frunCheck_sound okb (ok : fproc -> Prop) custom rate os n sites chk : (forall p, okb p = true -> ok p) -> frunCheck okb custom rate os n sites chk = true -> exists p, history fin ok n p /\ fp_sites p = sites /\ chk p = true.
Proof.
  intros HO H. unfold frunCheck in H. apply andb_true_iff in H. destruct H as [HR H]. destruct (frun okb _ os) as [[k p]|] eqn:E; [|discriminate]. rewrite !andb_true_iff in H. destruct H as [[H1 H2] H3]. apply Z.eqb_eq in H1. subst k.
  exists p. split; [eapply frun_sound; eauto|]. split; [|exact H3]. destruct (list_eq_dec Z.eq_dec (fp_sites p) sites); [assumption|discriminate].
Qed.
(** custom rates 0.75 and 1.25, in quarters *)
Example C57_grid_example : exists p, history (fun r => exists z, 0 <= z /\ asDouble (-2) z r) (fun p => (exactTotal p <= IZR (2 ^ 53) * bpow radix2 (-2))%R) 3 p /\ fp_custom p = true /\ fp_sites p = [2].
Proof.
  assert (L : forall z, 0 <= z <= 2 ^ 53 -> exists y, 0 <= y /\ asDouble (-2) y (flit z (-2))) by (intros z Hz; exists z; split; [lia|]; destruct (lit_val z (-2)) as [V F]; try lia; split; assumption).
  assert (V3 : val (flit 3 (-2)) = (3 * bpow radix2 (-2))%R) by (apply lit_val; cbn; lia). assert (V5 : val (flit 5 (-2)) = (5 * bpow radix2 (-2))%R) by (apply lit_val; cbn; lia).
  assert (BB : forall z, z <= 2 ^ 53 -> (IZR z * bpow radix2 (-2) <= IZR (2 ^ 53) * bpow radix2 (-2))%R) by (intros z Hz; apply Rmult_le_compat_r; [apply bpow_ge_0|apply IZR_le; exact Hz]).
  set (p0 := mkFP true (flit 3 (-2)) [] [] [] [] fzero). set (p1 := faddSite p0 1 (flit 3 (-2)) fone). set (p2 := faddSite p1 2 (flit 5 (-2)) fone).
  destruct (fremoveSite p2 1) as [p3|] eqn:E; [|unfold fremoveSite, p2, p1, p0 in E; cbn [faddSite fp_custom fp_sites fp_srates fp_mult app] in E; discriminate E].
  assert (ES : fp_custom p3 = true /\ fp_sites p3 = [2] /\ fp_srates p3 = [flit 5 (-2)]) by (unfold fremoveSite, p2, p1, p0 in E; cbn [faddSite fp_custom fp_sites fp_srates fp_mult app] in E; injection E as <-; auto).
  destruct ES as (E1 & E2 & E3). exists p3. split; [|auto].
  assert (H0 : history (fun r => exists z, 0 <= z /\ asDouble (-2) z r) (fun p => (exactTotal p <= IZR (2 ^ 53) * bpow radix2 (-2))%R) 0 p0) by (constructor; apply L; lia).
  assert (H1 : history (fun r => exists z, 0 <= z /\ asDouble (-2) z r) (fun p => (exactTotal p <= IZR (2 ^ 53) * bpow radix2 (-2))%R) (0 + 1) p1).
  { apply hi_add; [exact H0|apply L; lia|]. unfold exactTotal, listedRates, p0. cbn [faddSite fp_custom fp_srates app map fold_right]. rewrite V3. pose proof (BB 3 ltac:(lia)). lra. }
  assert (H2 : history (fun r => exists z, 0 <= z /\ asDouble (-2) z r) (fun p => (exactTotal p <= IZR (2 ^ 53) * bpow radix2 (-2))%R) (0 + 1 + 1) p2).
  { apply hi_add; [exact H1|apply L; lia|]. unfold exactTotal, listedRates, p1, p0. cbn [faddSite fp_custom fp_srates app map fold_right]. rewrite V3, V5. pose proof (BB 8 ltac:(lia)). lra. }
  change 3 with (0 + 1 + 1 + 1). eapply hi_remove; [exact H2|exact E|]. unfold exactTotal, listedRates. rewrite E1, E3. cbn [map fold_right]. rewrite V5. pose proof (BB 5 ltac:(lia)). lra.
Qed.
(** every process of the model whose numbers are at most 2^53 has a counterpart with doubles *)
Definition toDouble (e : Z) (p : process) : fproc :=
  mkFP (pr_custom p) (flit (pr_rate p) e) (pr_sites p) (map ofInt (pr_mult p)) (map (fun r => flit r e) (pr_srates p)) (map (fun r => flit r e) (pr_inc p)) (flit (pr_total p) e).
Definition smallb (z : Z) : bool := Z.abs z <=? 2 ^ 53.
Definition smallProcb (p : process) : bool := smallb (pr_rate p) && smallb (pr_total p) && forallb smallb (pr_mult p) && forallb smallb (pr_srates p) && forallb smallb (pr_inc p).
Theorem C57_counterpart e p : -900 <= e <= 900 -> smallProcb p = true -> sameRates e p (toDouble e p).
Proof.
  intros He H. unfold smallProcb in H. rewrite !andb_true_iff in H. destruct H as ((((H1 & H2) & H3) & H4) & H5).
  assert (A : forall f z, -900 <= f <= 900 -> smallb z = true -> asDouble f z (flit z f)) by (intros f z Hf Hz; unfold smallb in Hz; destruct (lit_val z f) as [V F]; try lia; split; assumption).
  assert (B : forall f l, -900 <= f <= 900 -> forallb smallb l = true -> Forall2 (asDouble f) l (map (fun r => flit r f) l)) by (intros f l Hf Hl; induction l as [|a l IH]; cbn [map forallb] in *; [constructor|]; apply andb_true_iff in Hl; constructor; [apply A; tauto|apply IH; tauto]).
  constructor; cbn; auto. apply B; [lia|exact H3].
Qed.
Strategy expand [xaCheck].
Example C57_selection_example : exists ranks hash L cf it md T fps, wfInput ranks L cf it /\ reachable ranks hash L cf it md /\ ratesOK md /\ totalRate (md_in md) = Some T /\ 5 < T <= 2 ^ 53 /\
  Forall2 (sameRates (-4)) (in_procs (md_in md)) fps /\ fin (flit 1 (-1)) /\ (bpow radix2 (-64) <= val (flit 1 (-1)) <= 1)%R.
Proof.
  assert (H : xaCheck (fun cf it md md' => ratesOKb md' && forallb smallProcb (in_procs (md_in md')) && match totalRate (md_in md') with Some T => (5 <? T) && (T <=? 2 ^ 53) | None => false end) = true) by (vm_compute; reflexivity).
  unfold xaCheck in H. apply userCheck_sound in H. destruct H as (cf & it & md & md' & US & HQ). rewrite !andb_true_iff in HQ. destruct HQ as ((H1 & H2) & H3). destruct (totalRate (md_in md')) as [T|] eqn:ET; [|discriminate]. apply andb_true_iff in H3.
  exists 2, xhash, x1L, cf, it, md', T, (map (toDouble (-4)) (in_procs (md_in md'))). assert (UI : userInput 2 x1L cf it (specOf xaSpecs)) by inputOf US. split; [apply UI|]. split; [reached US|]. split; [apply ratesOKb_sound; exact H1|].
  split; [exact ET|]. split; [lia|]. split.
  - clear - H2. induction (in_procs (md_in md')) as [|p ps IH]; cbn [map forallb] in *; [constructor|]. apply andb_true_iff in H2. constructor; [apply C57_counterpart; [lia|tauto]|apply IH; tauto].
  - destruct (lit_val 1 (-1)) as [V F]; [lia|cbn; lia|lia|]. split; [exact F|]. rewrite V, Rmult_1_l. split; [apply bpow_le; lia|]. change 1%R with (bpow radix2 0). apply bpow_le. lia.
Qed.
Definition anyb (p : fproc) : bool := true.
Lemma anyb_sound p : anyb p = true -> True.
Proof. auto. Qed.
(** the double next to a tenth *)
Definition tenth : f64 := fdiv (ofInt 1) (ofInt 10).
Example C57_drift_example : exists p, history fin (fun p => fin (fp_total p) /\ (Rabs (val (fp_total p)) < bpow radix2 (-1))%R) 5 p /\ fp_sites p = [3] /\ sfEqb (fp_total p) tenth = false.
Proof.
  assert (H : frunCheck (belowb (-1)) false tenth [OAdd 1 tenth; OTab; OAdd 2 tenth; OAdd 3 tenth; ORem 1; ORem 2] 5 [3] (fun p => negb (sfEqb (fp_total p) tenth)) = true) by (vm_compute; reflexivity).
  apply (frunCheck_sound _ (fun p => fin (fp_total p) /\ (Rabs (val (fp_total p)) < bpow radix2 (-1))%R)) in H; [|intros p; apply belowb_sound; lia].
  destruct H as (p & H1 & H2 & H3). exists p. split; [exact H1|]. split; [exact H2|]. destruct (sfEqb (fp_total p) tenth); [discriminate|reflexivity].
Qed.
(** Three sites are added with rate 0.1 and removed again: no site is left, the total rate is positive. *)
Theorem C57_refuted : exists n p, history fin (fun _ => True) n p /\ fp_custom p = false /\ fp_sites p = [] /\ flt fzero (fp_total p) = true.
Proof.
  assert (H : frunCheck anyb false tenth [OAdd 1 tenth; OAdd 2 tenth; OAdd 3 tenth; ORem 1; ORem 2; ORem 3] 6 [] (fun p => negb (fp_custom p) && flt fzero (fp_total p)) = true) by (vm_compute; reflexivity).
  apply (frunCheck_sound _ (fun _ => True)) in H; [|exact anyb_sound]. destruct H as (p & H1 & H2 & H3). exists 6, p. split; [exact H1|]. apply andb_true_iff in H3. destruct H3 as [H3 H4]. destruct (fp_custom p); [discriminate|]. auto.
Qed.
(** Custom rates 10^16 and 1: the rate left over is -1. *)
Theorem C57_negative_refuted : exists n p, history fin (fun _ => True) n p /\ fp_sites p = [] /\ val (fp_total p) = (-1)%R.
Proof.
  assert (H : frunCheck anyb true fone [OAdd 1 (ofInt (10 ^ 16)); OAdd 2 fone; ORem 1; ORem 2] 4 [] (fun p => sfEqb (fp_total p) (ofInt (-1))) = true) by (vm_compute; reflexivity).
  apply (frunCheck_sound _ (fun _ => True)) in H; [|exact anyb_sound]. destruct H as (p & H1 & H2 & H3). exists 4, p. split; [exact H1|]. split; [exact H2|]. rewrite (sfEqb_sound _ _ H3).
  destruct (int_val (-1)) as [V F]; [cbn; lia|]. exact V.
Qed.
(** A site with rate 1 is available, the total rate of its process is 0. *)
Theorem C57_absorbed_refuted : exists n p, history fin (fun _ => True) n p /\ fp_sites p = [2] /\ listedRates p = [fone] /\ fp_total p = fzero.
Proof.
  assert (H : frunCheck anyb true fone [OAdd 1 (ofInt (10 ^ 16)); OAdd 2 fone; ORem 1] 3 [2] (fun p => sfEqb (fp_total p) fzero && match listedRates p with [r] => sfEqb r fone | _ => false end) = true) by (vm_compute; reflexivity).
  apply (frunCheck_sound _ (fun _ => True)) in H; [|exact anyb_sound]. destruct H as (p & H1 & H2 & H3). exists 3, p. split; [exact H1|]. split; [exact H2|]. apply andb_true_iff in H3. destruct H3 as [H3 H4].
  destruct (listedRates p) as [|r [|? ?]]; try discriminate H4. rewrite (sfEqb_sound _ _ H4), (sfEqb_sound _ _ H3). auto.
Qed.
(** A process without available sites is selected although another one has an available site, and the selection of a site fails (reads
    outside an empty table).  The deviates are 2^-30 and 1/2. *)
Definition c57e : list fop := [OAdd 1 (ofInt (10 ^ 10)); OAdd 2 (fdiv (ofInt 2) (ofInt 10)); ORem 1; ORem 2].
Theorem C57_empty_selected_refuted : exists n n' p q, history fin (fun _ => True) n p /\ history fin (fun _ => True) n' q /\ fp_sites p = [] /\ fp_sites q = [7] /\ fp_total q = fone /\
  fpickProcessIndex (fprobTable fzero [p; q]) (flit 1 (-30)) = Some 0 /\ fpickEvent [p; q] (flit 1 (-30)) (flit 1 (-1)) = None.
Proof.
  destruct (frun anyb (0, mkFP true fone [] [] [] [] fzero) c57e) as [[n p]|] eqn:E; [|exfalso; assert (Q : match frun anyb (0, mkFP true fone [] [] [] [] fzero) c57e with Some _ => true | None => false end = true) by (vm_compute; reflexivity); rewrite E in Q; discriminate].
  assert (EX : frun anyb (0, mkFP true fone [] [] [] [] fzero) [OAdd 7 fone] = Some (1, faddSite (mkFP true fone [] [] [] [] fzero) 7 fone fone)) by reflexivity.
  exists n, 1, p, (faddSite (mkFP true fone [] [] [] [] fzero) 7 fone fone).
  assert (Q : match frun anyb (0, mkFP true fone [] [] [] [] fzero) c57e with Some (_, p) => match fp_sites p with [] => true | _ => false end &&
      match fpickProcessIndex (fprobTable fzero [p; faddSite (mkFP true fone [] [] [] [] fzero) 7 fone fone]) (flit 1 (-30)) with Some i => i =? 0 | None => false end &&
      match fpickEvent [p; faddSite (mkFP true fone [] [] [] [] fzero) 7 fone fone] (flit 1 (-30)) (flit 1 (-1)) with None => true | Some _ => false end | None => false end = true) by (vm_compute; reflexivity).
  rewrite E in Q. rewrite !andb_true_iff in Q. destruct Q as [[Q1 Q2] Q3]. split; [refine (frun_sound anyb _ true fone _ _ _ _ _ E); [auto|vm_compute; reflexivity]|]. split; [refine (frun_sound anyb _ true fone _ _ _ _ _ EX); [auto|vm_compute; reflexivity]|].
  split; [destruct (fp_sites p); [reflexivity|discriminate]|]. split; [reflexivity|]. split; [apply sfEqb_sound; vm_compute; reflexivity|].
  split; [destruct (fpickProcessIndex _ _) as [i|]; [|discriminate]; apply Z.eqb_eq in Q2; congruence|]. destruct (fpickEvent _ _ _); [discriminate|reflexivity].
Qed.

Print Assumptions C56_exact.
Print Assumptions C56_model.
Print Assumptions C56_lost.
Print Assumptions C56_refuted.
Print Assumptions C57_drift.
Print Assumptions C57_grid.
Print Assumptions C57_operations.
Print Assumptions C57_selection.
Print Assumptions C57_counterpart.
Print Assumptions C57_refuted.
Print Assumptions C57_negative_refuted.
Print Assumptions C57_absorbed_refuted.
Print Assumptions C57_empty_selected_refuted.
