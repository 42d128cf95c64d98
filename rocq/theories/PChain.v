(** Proofs about the chain of plain and bucket processes: what can happen, what an event does. *)
From Verif Require Import PBase SModel SGeo SEvent SBuild SPlain SStep SBucket SPossible PLattice PProcess PMatcher PPerform PStep PGeo PPossible PRun PEffect PRematch PEvent PBuild PPlain PRow PStepInv PBucket PRegular PSelect TMatch TStep TSelect TPossible TNoUB PIdeal PPick.
From Verif Require Export SChain.
From Coq Require Import ZifyBool.
Open Scope string_scope.
Open Scope list_scope.
Open Scope Z_scope.

(** ** Rows and entries *)
Record entryN (pt : tmap) (r : brow) (e : pentry) : Prop := {
  nn_c : pe_c e = br_c r;
  nn_match : forall s k, tfind pt s = Some k -> zget (pe_match e) k = Some (howMany s (br_before r));
  nn_upd : forall s k, tfind pt s = Some k -> zget (pe_upd e) k = Some (change (br_upd r) s) }.
Lemma howMany_nonneg s l : 0 <= howMany s l. Proof. apply zlen_nonneg. Qed.
Lemma howMany_one s t : howMany s [t] = if String.eqb s t then 1 else 0.
Proof. unfold howMany. cbn [filter]. destruct (String.eqb s t); reflexivity. Qed.
Lemma entryN_plain pt r e : wfPT pt -> entryFor pt r e -> entryN pt (numberRow r) e.
Proof.
  intros WP [Ec (kb & ka & K1 & K2 & [U1 U2] & LU & UU) _]. constructor; cbn [numberRow br_c br_before br_upd]; [exact Ec| |].
  - intros s k Hs. pose proof (tfind_range _ _ _ WP Hs) as Hk. destruct (zget_lt (pe_match e) k) as [a Ea]; [unfold bucket in *; lia|]. rewrite Ea, (U2 _ _ Ea), howMany_one. f_equal.
    destruct (Z.eqb_spec k kb) as [->|Hne], (String.eqb_spec s (rw_before r)) as [->|Hn]; try reflexivity; exfalso; [apply Hn; eapply tfind_inj; eauto|congruence].
  - intros s k Hs. pose proof (tfind_range _ _ _ WP Hs) as Hk. destruct (zget_lt (pe_upd e) k) as [a Ea]; [unfold bucket in *; lia|]. rewrite Ea, (UU _ _ Ea). f_equal.
    assert (EA : (k =? ka) = String.eqb s (rw_after r)) by (destruct (Z.eqb_spec k ka) as [->|], (String.eqb_spec s (rw_after r)) as [->|Hn]; try reflexivity; exfalso; [apply Hn; eapply tfind_inj; eauto|congruence]).
    assert (EB : (k =? kb) = String.eqb s (rw_before r)) by (destruct (Z.eqb_spec k kb) as [->|], (String.eqb_spec s (rw_before r)) as [->|Hn]; try reflexivity; exfalso; [apply Hn; eapply tfind_inj; eauto|congruence]).
    rewrite EA, EB. unfold change. destruct (String.eqb_spec (rw_before r) (rw_after r)) as [Eq|Nq].
    + rewrite Eq. cbn [tfind]. destruct (String.eqb s (rw_after r)); reflexivity.
    + cbn [tfind]. rewrite (String.eqb_sym (rw_before r) s), (String.eqb_sym (rw_after r) s). destruct (String.eqb_spec s (rw_before r)) as [E1|E1], (String.eqb_spec s (rw_after r)) as [E2|E2]; try congruence; reflexivity.
Qed.
Lemma entryN_bucket pt r e : entryForB pt r e -> entryN pt r e.
Proof. intros []. constructor; assumption. Qed.
Lemma entryN_wild pt r e : wfPT pt -> entryN pt r e -> (wildEntry e <-> anyRow r = true).
Proof.
  intros (_ & _ & W0) F. unfold wildEntry, anyRow. rewrite (nn_match _ _ _ F "*" 0 W0), Z.eqb_eq. split; [congruence|intros ->; reflexivity].
Qed.
Lemma rows_entries S pt sp p : wfPT pt -> builtFrom S pt sp p ->
  (forall e, In e (pr_ml p) -> exists r, In r (numberRows sp) /\ entryN pt r e) /\ (forall r, In r (numberRows sp) -> exists j e, zget (pr_ml p) j = Some e /\ entryN pt r e).
Proof.
  intros WP B. unfold builtFrom in B. destruct sp as [rows|rows]; destruct B as (WR & basis & B); cbn [numberRows].
  - destruct (builtPlain_spec _ _ _ _ _ WP B) as [es PO]. split.
    + intros e He. apply In_zget in He. destruct He as [j Ej]. destruct (ml_row _ _ _ _ _ _ PO j e Ej) as (i & r & Er & _ & F). exists (numberRow r). split; [apply in_map; eapply zget_In; eauto|apply entryN_plain; assumption].
    + intros r Hr. apply in_map_iff in Hr. destruct Hr as (r0 & <- & Hr). apply In_zget in Hr. destruct Hr as [i Ei]. destruct (row_ml _ _ _ _ _ _ PO i r0 Ei) as (j & e & Ej & _ & F). exists j, e. split; [exact Ej|apply entryN_plain; assumption].
  - destruct (builtBucket_spec _ _ _ _ _ WP WR B) as [es BO]. split.
    + intros e He. destruct (bml_row _ _ _ _ _ _ BO e He) as (r & Hr & F). exists r. split; [exact Hr|apply entryN_bucket; exact F].
    + intros r Hr. apply In_zget in Hr. destruct Hr as [i Ei]. destruct (bo_rows _ _ _ _ _ _ BO i r Ei) as (e & Ee & F). apply zget_In in Ee.
      apply (Permutation_in _ (Permutation_sym (isort_perm (peLt S) es))) in Ee. rewrite <- (bo_ml _ _ _ _ _ _ BO) in Ee. apply In_zget in Ee. destruct Ee as [j Ej]. exists j, e. split; [exact Ej|apply entryN_bucket; exact F].
Qed.
(** a row that asks for a wildcard changes nothing *)
Lemma any_keeps S pt sp p r : builtFrom S pt sp p -> takesWhatItAsksFor sp -> In r (numberRows sp) -> anyRow r = true -> forall s, change (br_upd r) s = 0.
Proof.
  intros B T Hr Ha s. unfold builtFrom in B. unfold anyRow in Ha. apply Z.eqb_eq in Ha. destruct sp as [rows|rows]; destruct B as ([_ WR] & _ & _); cbn [numberRows takesWhatItAsksFor] in *.
  - apply in_map_iff in Hr. destruct Hr as (r0 & <- & Hr). cbn [numberRow br_before br_upd] in *. rewrite howMany_one in Ha. destruct (String.eqb_spec "*" (rw_before r0)) as [E|]; [|discriminate].
    assert (EA : rw_after r0 = "*") by (apply (WR r0 Hr); congruence). rewrite EA, <- E. reflexivity.
  - destruct (T r Hr) as [_ T2]. apply T2. unfold howMany in Ha. destruct (filter (String.eqb "*") (br_before r)) as [|a l] eqn:EF; [discriminate|]. assert (Hin : In a (filter (String.eqb "*") (br_before r))) by (rewrite EF; left; reflexivity).
    apply filter_In in Hin. destruct Hin as [Hin Ea]. apply String.eqb_eq in Ea. subst a. exact Hin.
Qed.

(** ** States *)
Lemma numberAt_get names cf y t els : NoDup names -> In t names -> zget (cf_elements cf) y = Some els -> numberAt names (numbersIn names cf) y t = howMany t els.
Proof.
  intros ND Ht Ey. unfold numberAt, numbersIn. rewrite zget_map, Ey. unfold option_map. clear Ey. induction names as [|a names IH]; [destruct Ht|]. cbn [map combine find fst].
  inversion ND; subst. destruct (String.eqb_spec a t) as [->|Hne]; [reflexivity|]. apply IH; [assumption|]. destruct Ht; [congruence|assumption].
Qed.
Lemma numbers_get names cf y : zget (numbersIn names cf) y = option_map (fun els => map (fun t => howMany t els) names) (zget (cf_elements cf) y).
Proof. unfold numbersIn. apply zget_map. Qed.

Section Chain.
Context (ranks : Z) (hash : list Z -> Z) (L : lattice) (basis : list coord) (names : list string) (cf : config) (it : interactions) (prs : list cproc)
        (CH : processesInput ranks L basis names cf it prs).
Notation coords := (generateLatticeSites L basis).
Notation canHappen := (canHappen L basis names).
Notation happened := (happened L basis names).
Notation eventRate := (eventRate L basis names).
Notation sites := (sites L).
Notation now md := (numbersIn names (md_cf md)).

Lemma pc_ui : userInput ranks L cf it (specOfProc prs). Proof using CH. apply CH. Qed.
Lemma pc_wi : wfInput ranks L cf it. Proof using CH. apply pc_ui. Qed.
Lemma pc_wf : wf_lattice L. Proof using CH. apply pc_wi. Qed.
Lemma pc_wb : wf_basis L basis. Proof using CH. apply CH. Qed.
Lemma pc_pt : wfPT (cf_ptypes cf). Proof using CH. apply pc_ui. Qed.
Lemma cproc_of i pr : zget prs i = Some pr -> exists p, zget (in_procs it) i = Some p.
Proof using CH. intros E. apply zget_lt. rewrite <- (pc_len _ _ _ _ _ _ _ CH). eapply zget_range; eauto. Qed.
Lemma cproc_back i p : zget (in_procs it) i = Some p -> exists pr, zget prs i = Some pr.
Proof using CH. intros E. apply zget_lt. rewrite (pc_len _ _ _ _ _ _ _ CH). eapply zget_range; eauto. Qed.
Lemma spec_of i pr : zget prs i = Some pr -> specOfProc prs i = cp_spec pr.
Proof using. unfold specOfProc. intros ->. reflexivity. Qed.
Lemma procs_some : in_procs it <> [].
Proof using CH.
  intros X. pose proof (pc_len _ _ _ _ _ _ _ CH) as E. pose proof (pc_some _ _ _ _ _ _ _ CH) as N. rewrite X in E. destruct prs; [congruence|]. rewrite zlen_cons in E. pose proof (zlen_nonneg l). cbn in E. lia.
Qed.
Lemma numbers_ok i p : zget (in_procs it) i = Some p -> pr_number p = i.
Proof using CH. intros Ep. destruct (cproc_back i p Ep) as [pr Ei]. apply (pc_proc _ _ _ _ _ _ _ CH i pr p Ei Ep). Qed.
Lemma thrifty_all i p : zget (in_procs it) i = Some p -> thriftySpec (specOfProc prs i).
Proof using CH. intros Ep. destruct (cproc_back i p Ep) as [pr Ei]. rewrite (spec_of i pr Ei). apply (pc_proc _ _ _ _ _ _ _ CH i pr p Ei Ep). Qed.
Lemma empties_all i p : zget (in_procs it) i = Some p -> neverEmpties (cf_ptypes cf) (specOfProc prs i).
Proof using CH. intros Ep. destruct (cproc_back i p Ep) as [pr Ei]. rewrite (spec_of i pr Ei). apply (pc_proc _ _ _ _ _ _ _ CH i pr p Ei Ep). Qed.
Lemma pc_nonneg md : reachable ranks hash L cf it md -> nonNegative (md_cf md).
Proof using CH. intros HR. eapply C19_nonnegative_partial; [exact pc_ui|exact thrifty_all|exact HR]. Qed.
Lemma pc_agrees md : reachable ranks hash L cf it md -> agrees (md_cf md).
Proof using CH.
  pose proof pc_ui as UI. pose proof (user_std _ _ _ _ _ UI) as ST. revert md. apply (std_ind _ hash _ _ _ ST agrees).
  - destruct (ui_cf _ _ _ _ _ UI) as (cs & els & E). eapply agrees_start; eauto. apply UI.
  - apply agrees_same.
  - intros md md' i p x ys HR HR' _ EF HA. destruct (reach_static _ _ _ _ _ _ HR) as (_ & EN & EP). destruct (reach_static _ _ _ _ _ _ HR') as (_ & _ & EP').
    eapply agrees_event; [rewrite EP; apply UI|rewrite EP, EN; eapply std_names; eauto|congruence|exact EF|exact HA].
Qed.
(** what is stored at a site is what is listed there *)
Lemma site_numbers md y : reachable ranks hash L cf it md -> 0 <= y < nsites L -> exists t els, zget (cf_types (md_cf md)) y = Some t /\ zget (cf_elements (md_cf md)) y = Some els /\
  zlen t = zlen (cf_ptypes cf) /\ forall s k, tfind (cf_ptypes cf) s = Some k -> zget t k = Some (howMany s els).
Proof using CH.
  intros HR Hy. destruct (reach_lens _ _ _ _ _ _ pc_wi HR) as (L1 & L2 & _). destruct (zget_lt (cf_types (md_cf md)) y) as [t Et]; [unfold bucket in *; lia|]. destruct (zget_lt (cf_elements (md_cf md)) y) as [els Ee]; [lia|].
  pose proof (reach_width _ _ _ _ _ (user_std _ _ _ _ _ pc_ui) md HR t (zget_In _ _ _ Et)) as HW. exists t, els. split; [exact Et|]. split; [exact Ee|]. split; [exact HW|].
  intros s k Hs. pose proof (tfind_range _ _ _ pc_pt Hs). destruct (zget_lt t k) as [n En]; [lia|]. rewrite En. f_equal.
  destruct (reach_static _ _ _ _ _ _ HR) as (_ & _ & EP). pose proof (pc_agrees md HR y t els s k n Et Ee) as HA. rewrite EP in HA. specialize (HA Hs En). pose proof (pc_nonneg md HR y t k n Et En). unfold howMany. lia.
Qed.
Lemma has_number md y s m : reachable ranks hash L cf it md -> 0 <= y < nsites L -> In s names -> (hasAtLeast (md_cf md) y s m <-> m <= numberAt names (now md) y s).
Proof using CH.
  intros HR Hy Hs. destruct (site_numbers md y HR Hy) as (t & els & Et & Ee & HW & HN). destruct (pc_names _ _ _ _ _ _ _ CH) as [ND IN].
  rewrite (numberAt_get names (md_cf md) y s els ND Hs Ee). destruct (reach_static _ _ _ _ _ _ HR) as (_ & _ & EP). apply IN in Hs. destruct Hs as [k Hk]. split.
  - intros (k' & t' & n & A & B & C & D). rewrite EP in A. assert (k' = k) by congruence. assert (t' = t) by congruence. subst k' t'. rewrite (HN s k Hk) in C. injection C as <-. exact D.
  - intros D. exists k, t, (howMany s els). rewrite EP. auto.
Qed.
Lemma number_nonneg md y s : reachable ranks hash L cf it md -> 0 <= y < nsites L -> In s names -> 0 <= numberAt names (now md) y s.
Proof using CH.
  intros HR Hy Hs. destruct (site_numbers md y HR Hy) as (t & els & Et & Ee & _). rewrite (numberAt_get names (md_cf md) y s els); [apply howMany_nonneg|apply CH|exact Hs|exact Ee].
Qed.

(** the rows of the user, as rows of numbers *)
Lemma rows_numbers md i p pr x : reachable ranks hash L cf it md -> zget (in_procs it) i = Some p -> zget prs i = Some pr -> 0 <= x < nsites L ->
  (rowsMatch L (md_cf md) (cp_spec pr) x <->
   forall r, In r (cp_rows pr) -> anyRow r = true \/ exists y, 0 <= y < nsites L /\ siteAt L coords x (br_c r) y /\ forall s, In s names -> howMany s (br_before r) <= numberAt names (now md) y s).
Proof using CH.
  intros HR Ep Ei Hx. destruct (reach_static _ _ _ _ _ _ HR) as (EC & _ & EP). rewrite (gi_coords _ _ _ _ _ (pc_geo _ _ _ _ _ _ _ CH)) in EC. pose proof (pc_names _ _ _ _ _ _ _ CH) as [ND IN].
  assert (RG : forall c y, siteAt L coords x c y -> 0 <= y < nsites L) by (intros c y (_ & d & _ & Ed & _); apply zget_range in Ed; rewrite (lattice_sites_len L pc_wf) in Ed; [exact Ed|apply pc_wb]).
  pose proof (ui_procs _ _ _ _ _ pc_ui i p Ep) as B. rewrite (spec_of i pr Ei) in B. unfold cp_rows. destruct (cp_spec pr) as [rows|rows]; cbn [rowsMatch numberRows]; rewrite EC.
  - destruct (rows_entries _ _ _ _ pc_pt B) as [_ RE]. cbn [numberRows] in RE. destruct B as (WR & bs & B). destruct (builtPlain_spec _ _ _ _ _ pc_pt B) as [es PO].
    assert (KB : forall r, In r rows -> In (rw_before r) names).
    { intros r Hr. apply In_zget in Hr. destruct Hr as [j Ej]. destruct (row_ml _ _ _ _ _ _ PO j r Ej) as (_ & e & _ & _ & F). destruct (en_kinds _ _ _ F) as (kb & _ & K & _). apply IN. eauto. }
    split.
    + intros H r Hr. apply in_map_iff in Hr. destruct Hr as (r0 & <- & Hr). unfold anyRow. cbn [numberRow br_before br_c]. rewrite howMany_one.
      destruct (H r0 Hr) as [->|(y & A & D)]; [left; reflexivity|right]. exists y. split; [eapply RG; eauto|]. split; [exact A|]. intros s Hs. rewrite howMany_one. pose proof (number_nonneg md y s HR (RG _ _ A) Hs).
      destruct (String.eqb_spec s (rw_before r0)) as [->|]; [|lia]. apply (has_number md y); auto. eapply RG; eauto.
    + intros H r Hr. specialize (H (numberRow r) (in_map _ _ _ Hr)). unfold anyRow in H. cbn [numberRow br_before br_c] in H. rewrite howMany_one in H. destruct H as [H|(y & Hy & A & D)].
      * left. destruct (String.eqb_spec "*" (rw_before r)); [congruence|discriminate].
      * right. exists y. split; [exact A|]. apply (has_number md y); auto. specialize (D (rw_before r) (KB r Hr)). rewrite howMany_one, String.eqb_refl in D. exact D.
  - split.
    + intros H r Hr. unfold anyRow. rewrite Z.eqb_eq. destruct (H r Hr) as [A|(y & A & D)]; [left; exact A|right]. exists y. split; [eapply RG; eauto|]. split; [exact A|]. intros s Hs. apply (has_number md y); auto; [eapply RG; eauto|].
      apply D. rewrite EP. apply IN in Hs. destruct Hs as [k ->]. discriminate.
    + intros H r Hr. specialize (H r Hr). unfold anyRow in H. rewrite Z.eqb_eq in H. destruct H as [A|(y & Hy & A & D)]; [left; exact A|right]. exists y. split; [exact A|]. intros s Hs. rewrite EP in Hs.
      assert (Hin : In s names) by (apply IN; destruct (tfind (cf_ptypes cf) s) as [k|]; [eauto|congruence]). apply (has_number md y); auto.
Qed.
Lemma canHappen_spec md i pr x : reachable ranks hash L cf it md -> zget prs i = Some pr -> In x sites -> (listed md i x <-> canHappen pr x (now md) = true).
Proof using CH.
  intros HR Ei Hx. apply In_sites in Hx. destruct (cproc_of i pr Ei) as [p Ep]. destruct (pc_proc _ _ _ _ _ _ _ CH i pr p Ei Ep) as (Eb & _ & PL & _).
  rewrite (C06_rows_listed_iff_possible ranks hash L basis cf it _ md i p (cp_basis pr) x pc_ui (pc_geo _ _ _ _ _ _ _ CH) (pc_wild _ _ _ _ _ _ _ CH) HR (pc_nonneg md HR) Ep Eb); [|rewrite (spec_of i pr Ei); exact PL|exact Hx].
  rewrite (spec_of i pr Ei), (rows_numbers md i p pr x HR Ep Ei Hx). unfold SChain.canHappen. rewrite andb_true_iff, Z.eqb_eq, (basis_mod L pc_wf x) by lia.
  apply and_iff_compat_l. rewrite forallb_forall. split.
  - intros H r Hr. apply orb_true_iff. destruct (H r Hr) as [H1|(y & Hy & H1 & H2)]; [left; exact H1|right].
    apply existsb_exists. exists y. split; [apply In_sites; exact Hy|]. rewrite andb_true_iff. split; [apply (there_spec L pc_wf basis pc_wb); auto|]. apply forallb_forall. intros s Hs. apply Z.leb_le. auto.
  - intros H r Hr. specialize (H r Hr). apply orb_true_iff in H. destruct H as [H|H]; [left; exact H|right].
    apply existsb_exists in H. destruct H as (y & Hy & H). apply In_sites in Hy. apply andb_true_iff in H. destruct H as [H1 H2].
    exists y. split; [exact Hy|]. split; [apply (there_spec L pc_wf basis pc_wb) in H1; auto|]. intros s Hs. rewrite forallb_forall in H2. apply Z.leb_le. auto.
Qed.

(** ** What an event does *)
Lemma now_len md : reachable ranks hash L cf it md -> zlen (now md) = nsites L.
Proof using CH. intros HR. destruct (reach_lens _ _ _ _ _ _ pc_wi HR) as (_ & L2 & _). unfold numbersIn. rewrite zlen_map. exact L2. Qed.
Lemma happened_get pr x s y : zlen s = nsites L -> zget (happened pr x s) y =
  option_map (fun ns => match find (fun r => negb (anyRow r) && there L basis x (br_c r) y) (cp_rows pr) with
                        | Some r => map (fun tn => snd tn + change (br_upd r) (fst tn)) (combine names ns) | None => ns end) (zget s y).
Proof using.
  intros Hl. unfold SChain.happened. rewrite zget_map. destruct (zget s y) as [t|] eqn:Ey.
  - pose proof (zget_range _ _ _ Ey). assert (Ez : zget sites y = Some y) by (unfold SIdeal.sites; rewrite zget_zrange; [f_equal; lia|lia]).
    rewrite (proj2 (PRow.combine_get sites s y y t)) by auto. reflexivity.
  - destruct (zget (combine sites s) y) as [[z t]|] eqn:E; [|reflexivity]. apply PRow.combine_get in E. destruct E; congruence.
Qed.
Lemma combine_self {A B C} (f : A -> B) (g : A * B -> C) (l : list A) : map g (combine l (map f l)) = map (fun a => g (a, f a)) l.
Proof using. induction l as [|a l IH]; [reflexivity|]. cbn [map combine]. rewrite IH. reflexivity. Qed.
Lemma step_happened md u1 u2 md' : reachable ranks hash L cf it md -> singleStep md u1 u2 = Some md' ->
  exists i pr x, zget prs i = Some pr /\ In x sites /\ canHappen pr x (now md) = true /\ cf_lastproc (md_cf md') = i /\ cf_lastsite (md_cf md') = x /\ now md' = happened pr x (now md).
Proof using CH.
  intros HR H. pose proof (reach_step _ _ _ _ _ _ _ _ _ HR H) as HR'. pose proof pc_ui as UI. pose proof (pc_names _ _ _ _ _ _ _ CH) as [ND IN].
  destruct (std_step _ hash _ _ _ (user_std _ _ _ _ _ UI) md u1 u2 md' HR H) as (i & p & x & ys & Ep & _ & HL & Hx & A1 & A2 & EF).
  destruct (cproc_back i p Ep) as [pr Ei]. destruct (pc_proc _ _ _ _ _ _ _ CH i pr p Ei Ep) as (_ & En & PL & TT & _).
  assert (Hs : In x sites) by (apply In_sites; exact Hx).
  exists i, pr, x. split; [exact Ei|]. split; [exact Hs|]. split; [apply (canHappen_spec md i pr x HR Ei Hs); exact HL|]. split; [congruence|]. split; [exact A2|].
  pose proof (ui_procs _ _ _ _ _ UI i p Ep) as B. rewrite (spec_of i pr Ei) in B. destruct (rows_entries _ _ _ _ pc_pt B) as [ER RE]. fold (cp_rows pr) in ER, RE.
  destruct (reach_static _ _ _ _ _ _ HR) as (EC & _). rewrite (gi_coords _ _ _ _ _ (pc_geo _ _ _ _ _ _ _ CH)) in EC.
  assert (AT : forall j e y r, zget (pr_ml p) j = Some e -> zget ys j = Some y -> entryN (cf_ptypes cf) r e -> anyRow r = false -> siteAt L coords x (br_c r) y).
  { intros j e y r Ee Ey F Ha. destruct (ef_site _ _ _ _ _ _ EF j e y Ee Ey) as [W|(a & b & d & t & Ea & Eb & SD & CT & _)]; [apply (entryN_wild _ _ _ pc_pt F) in W; congruence|].
    apply closeTo_eq in CT; [|apply (ui_unit _ _ _ _ _ UI)]. subst d. rewrite EC in Ea, Eb. rewrite (nn_c _ _ _ F) in SD. exists a, b. auto. }
  assert (CHG : forall j e y r els els', zget (pr_ml p) j = Some e -> zget ys j = Some y -> entryN (cf_ptypes cf) r e -> zget (cf_elements (md_cf md)) y = Some els -> zget (cf_elements (md_cf md')) y = Some els' ->
     forall s, In s names -> howMany s els' = howMany s els + change (br_upd r) s).
  { intros j e y r els els' Ee Ey F El El' s Hsn. pose proof (ef_range _ _ _ _ _ _ EF y (zget_In _ _ _ Ey)) as Hy. apply IN in Hsn. destruct Hsn as [k Hk].
    destruct (site_numbers md y HR Hy) as (t & l & Et & E1 & _ & HN). destruct (site_numbers md' y HR' Hy) as (t' & l' & Et' & E1' & _ & HN'). assert (l = els) by congruence. assert (l' = els') by congruence. subst l l'.
    destruct (ef_types _ _ _ _ _ _ EF j e y Ee Ey) as (t0 & t1 & T1 & T2 & [_ T4] & _). assert (t0 = t) by congruence. assert (t1 = t') by congruence. subst t0 t1.
    pose proof (T4 k _ _ (HN s k Hk) (nn_upd _ _ _ F s k Hk)) as X. rewrite (HN' s k Hk) in X. congruence. }
  apply zget_ext. intros y. rewrite happened_get by (apply now_len; exact HR). rewrite !numbers_get.
  destruct (zget (cf_elements (md_cf md)) y) as [els|] eqn:Ey.
  - assert (Hy : 0 <= y < nsites L) by (pose proof (zget_range _ _ _ Ey) as X; destruct (reach_lens _ _ _ _ _ _ pc_wi HR) as (_ & L2 & _); lia).
    destruct (site_numbers md' y HR' Hy) as (t' & els' & Et' & Ey' & _ & HN'). rewrite Ey'. unfold option_map. f_equal.
    destruct (find _ (cp_rows pr)) as [r|] eqn:Ef.
    + apply find_some in Ef. destruct Ef as [Hr Hf]. apply andb_true_iff in Hf. destruct Hf as [Hw Ht]. apply negb_true_iff in Hw.
      apply (there_spec L pc_wf basis pc_wb) in Ht; auto. destruct (RE r Hr) as (j & e & Ee & F). destruct (zget_lt ys j) as [y' Eyj]; [rewrite (ef_len _ _ _ _ _ _ EF); eapply zget_range; eauto|].
      pose proof (AT j e y' r Ee Eyj F Hw) as HA. assert (y' = y) by (eapply (siteAt_unique L pc_wf basis pc_wb); eauto). subst y'.
      rewrite combine_self. apply map_ext_in. intros s Hsn. cbn [fst snd]. eapply CHG; eauto.
    + apply map_ext_in. intros s Hsn. destruct (in_dec Z.eq_dec y ys) as [Hi|Hi].
      * apply In_zget in Hi. destruct Hi as [j Ej]. destruct (zget_lt (pr_ml p) j) as [e Ee]; [rewrite <- (ef_len _ _ _ _ _ _ EF); eapply zget_range; eauto|].
        destruct (ER e (zget_In _ _ _ Ee)) as (r & Hr & F). pose proof (find_none _ _ Ef r Hr) as Hf. cbn beta in Hf. rewrite (CHG j e y r els els' Ee Ej F Ey Ey' s Hsn).
        destruct (anyRow r) eqn:Ha; [rewrite (any_keeps _ _ _ _ r B TT Hr Ha); lia|]. exfalso. cbn [negb andb] in Hf. pose proof (AT j e y r Ee Ej F Ha) as X. apply (there_spec L pc_wf basis pc_wb) in X; auto. congruence.
      * assert (K : zget (cf_elements (md_cf md')) y = zget (cf_elements (md_cf md)) y) by (apply (ef_elements_other _ _ _ _ _ _ EF); intros j e _ E; exfalso; apply Hi; eapply zget_In; eauto).
        congruence.
  - cbn [option_map]. destruct (zget (cf_elements (md_cf md')) y) as [t|] eqn:Ey'; [|reflexivity]. exfalso. destruct (reach_lens _ _ _ _ _ _ pc_wi HR) as (_ & L2 & _). destruct (reach_lens _ _ _ _ _ _ pc_wi HR') as (_ & L2' & _).
    apply zget_range in Ey'. apply zget_None in Ey. lia.
Qed.

(** ** Rates *)
(** the rates of the listed events are those of the chain *)
Definition ratesFollow : Prop := roomyStart L cf it /\ (forall md i x r pr, reachable ranks hash L cf it md -> evt (md_in md) i x r -> zget prs i = Some pr -> r = cp_rate pr x (now md)) /\
  (forall md i pr x, reachable ranks hash L cf it md -> zget prs i = Some pr -> In x sites -> canHappen pr x (now md) = true -> 0 <= cp_rate pr x (now md)).
Context (RF : ratesFollow).
Definition av (s : pstate) (i x : Z) : bool := match zget prs i with Some pr => canHappen pr x s | None => false end.
Definition rateOf (s : pstate) (i x : Z) : Z := match zget prs i with Some pr => eventRate pr x s | None => 0 end.
Lemma chain_ev md : reachable ranks hash L cf it md ->
  forall i x r, evt (md_in md) i x r <-> 0 <= i < zlen (in_procs it) /\ In x sites /\ av (now md) i x = true /\ r = rateOf (now md) i x.
Proof using CH RF.
  intros HR i x r. destruct RF as (_ & RR & _). unfold av, rateOf. pose proof (pc_len _ _ _ _ _ _ _ CH) as EL. split.
  - intros H. destruct (C10_total_rate _ _ _ _ _ _ pc_wi HR procs_some) as [_ _]. destruct (reachable_info _ _ _ _ _ _ pc_wi HR) as (cf1 & it2 & RI).
    assert (Hx : In x sites) by (pose proof H as H'; apply (iv_evt _ (ri_inv _ _ _ _ _ _ _ _ RI)) in H'; rewrite (ri_lat _ _ _ _ _ _ _ _ RI) in H'; apply In_sites; apply H').
    assert (Hi : 0 <= i < zlen (in_procs it)). { rewrite <- (pick_procs_len _ _ _ _ _ pc_wi md HR). destruct H as (p & Ep & _). eapply zget_range; eauto. }
    destruct (zget_lt prs i ltac:(lia)) as [pr Ei]. rewrite Ei. split; [exact Hi|]. split; [exact Hx|]. assert (HC : canHappen pr x (now md) = true) by (apply (canHappen_spec md i pr x HR Ei Hx); eexists; exact H). split; [exact HC|]. unfold SChain.eventRate. rewrite HC. eapply RR; eauto.
  - intros (Hi & Hx & Ha & ->). destruct (zget prs i) as [pr|] eqn:Ei; [|discriminate]. unfold SChain.eventRate. rewrite Ha. apply (canHappen_spec md i pr x HR Ei Hx) in Ha. destruct Ha as [r H]. rewrite <- (RR md i x r pr HR H Ei). exact H.
Qed.
Lemma chain_nn md : reachable ranks hash L cf it md -> forall i x, 0 <= i < zlen (in_procs it) -> In x sites -> 0 <= rateOf (now md) i x.
Proof using CH RF. intros HR i x Hi Hx. unfold rateOf. destruct (zget prs i) as [pr|] eqn:Ei; [|lia]. destruct RF as (_ & _ & RN). unfold SChain.eventRate. destruct (canHappen pr x (now md)) eqn:EC; [|lia]. eapply RN; eauto. Qed.
Lemma point_rate s i pr x : zget prs i = Some pr -> pointRate (av s) (rateOf s) i x = eventRate pr x s.
Proof using. intros Ei. unfold pointRate, av, rateOf, SChain.eventRate. rewrite Ei. destruct (canHappen pr x s); reflexivity. Qed.
Lemma proc_total s i pr : zget prs i = Some pr -> procTotal L (av s) (rateOf s) i = ratesOf L basis names pr s.
Proof using. intros Ei. unfold procTotal, ratesOf. f_equal. apply map_ext. intros x. apply point_rate. exact Ei. Qed.
Lemma grand_total s : grandTotal L it (av s) (rateOf s) = allRates L basis names prs s.
Proof using CH.
  unfold grandTotal, allRates. rewrite <- (pc_len _ _ _ _ _ _ _ CH). rewrite <- (zsum_numbers prs (fun _ pr => ratesOf L basis names pr s) (fun pr => ratesOf L basis names pr s)) by reflexivity.
  f_equal. apply map_ext_in. intros i Hi. apply In_zrange in Hi. destruct (zget_lt prs i ltac:(lia)) as [pr Ei]. rewrite Ei. apply proc_total. exact Ei.
Qed.
Lemma chain_total md : reachable ranks hash L cf it md -> totalRate (md_in md) = Some (allRates L basis names prs (now md)).
Proof using CH RF. intros HR. rewrite <- grand_total. apply (pick_total _ _ _ _ _ pc_wi md HR _ _ (chain_ev md HR) procs_some). Qed.
Lemma chain_total_nonneg md : reachable ranks hash L cf it md -> 0 <= allRates L basis names prs (now md).
Proof using CH RF. intros HR. rewrite <- grand_total. apply grandTotal_nonneg. apply chain_nn. exact HR. Qed.

Lemma chain_start : exists md0, mkLatticeModel ranks hash L cf it = Some md0.
Proof using CH RF.
  pose proof pc_ui as UI. destruct (mkLatticeModel ranks hash L cf it) as [md0|] eqn:E; [eauto|]. exfalso. revert E. apply (C50_start _ _ _ _ _ _ UI); [|apply RF].
  intros _. exists basis. split; [apply CH|]. intros i p b Ep Eb. destruct (cproc_back i p Ep) as [pr Ei]. destruct (pc_proc _ _ _ _ _ _ _ CH i pr p Ei Ep) as (Eb' & _ & PL & _).
  rewrite (spec_of _ _ Ei). assert (b = cp_basis pr) by congruence. subst b. exact PL.
Qed.
Lemma chain_step_exists md u1 u2 : reachable ranks hash L cf it md -> 0 < allRates L basis names prs (now md) -> unitDeviate u1 -> unitDeviate u2 -> exists md', singleStep md u1 u2 = Some md'.
Proof using CH RF.
  intros HR HT U1 U2. pose proof pc_ui as UI. rewrite <- grand_total in HT. destruct (pick_ok L it md _ _ (chain_ev md HR) (chain_nn md HR) HT) as [O1 O2].
  destruct (singleStep md u1 u2) as [md'|] eqn:E; [eauto|]. exfalso. revert E. apply (C50_step ranks hash _ _ _ _ _ _ _ UI); auto; [apply RF|exact empties_all].
Qed.
Lemma chain_step md u1 u2 md' : reachable ranks hash L cf it md -> 0 < allRates L basis names prs (now md) -> unitDeviate u1 -> unitDeviate u2 -> singleStep md u1 u2 = Some md' ->
  chainStep L basis names prs (now md) (cf_lastproc (md_cf md'), cf_lastsite (md_cf md')) (now md').
Proof using CH RF.
  intros HR HT U1 U2 H. destruct (step_happened md u1 u2 md' HR H) as (i & pr & x & Ei & Hx & He & A1 & A2 & ->). pose proof (pick_step _ _ _ _ _ pc_wi md HR u1 u2 md' numbers_ok H) as HP.
  rewrite <- grand_total in HT. destruct (pick_positive _ _ _ _ _ pc_wi md HR _ _ (chain_ev md HR) (chain_nn md HR) u1 u2 _ _ HT U1 U2 HP) as (_ & _ & PP).
  rewrite A1, A2 in *. constructor; [exact Ei|exact Hx|]. rewrite (point_rate _ i pr x Ei) in PP. exact PP.
Qed.
Lemma chain_positive md e s' : reachable ranks hash L cf it md -> chainStep L basis names prs (now md) e s' -> 0 < allRates L basis names prs (now md).
Proof using CH RF.
  intros HR H. inversion H as [i pr x Ei Hx HP E1 E2]. rewrite <- grand_total. apply (grandTotal_pos L it _ _ (chain_nn md HR) i x).
  - rewrite <- (pc_len _ _ _ _ _ _ _ CH). eapply zget_range; eauto.
  - exact Hx.
  - rewrite (point_rate _ i pr x Ei). exact HP.
Qed.
Lemma chain_follows md e s' : reachable ranks hash L cf it md -> chainStep L basis names prs (now md) e s' ->
  exists u1 u2 md', unitDeviate u1 /\ unitDeviate u2 /\ singleStep md u1 u2 = Some md' /\ (cf_lastproc (md_cf md'), cf_lastsite (md_cf md')) = e /\ now md' = s'.
Proof using CH RF.
  intros HR H. pose proof (chain_positive _ _ _ HR H) as HT. destruct H as [i pr x Ei Hx HP].
  destruct (pick_deviates _ _ _ _ _ pc_wi md HR _ _ (chain_ev md HR) (chain_nn md HR) i x) as (u1 & u2 & U1 & U2 & EP); [rewrite <- (pc_len _ _ _ _ _ _ _ CH); eapply zget_range; eauto|exact Hx|rewrite (point_rate _ i pr x Ei); exact HP|].
  destruct (chain_step_exists md u1 u2 HR HT U1 U2) as [md' E]. exists u1, u2, md'. pose proof (pick_step _ _ _ _ _ pc_wi md HR u1 u2 md' numbers_ok E) as PS.
  destruct (step_happened md u1 u2 md' HR E) as (i' & pr' & x' & Ei' & _ & _ & A1 & A2 & HS'). rewrite A1, A2 in PS.
  assert (i' = i /\ x' = x) as [-> ->] by (split; congruence). assert (pr' = pr) by congruence. subst pr'. rewrite A1, A2. auto 6.
Qed.
Lemma chain_count md m N (P : Z -> Z -> bool) : reachable ranks hash L cf it md -> 0 < allRates L basis names prs (now md) -> 0 < m -> 0 < N ->
  (forall pr, In pr prs -> 0 < ratesOf L basis names pr (now md) -> (ratesOf L basis names pr (now md) | N)) ->
  zlen (filter (fun k => match pickedEvent md (mkDev (fst k) (m * allRates L basis names prs (now md))) (mkDev (snd k) N) with Some e => P (fst e) (snd e) | None => false end)
               (list_prod (zrange 1 (m * allRates L basis names prs (now md))) (zrange 1 N))) =
  m * N * zsum (map (fun i => match zget prs i with Some pr => zsum (map (fun x => if P i x then eventRate pr x (now md) else 0) sites) | None => 0 end) (zrange 0 (zlen prs - 1))).
Proof using CH RF.
  intros HR HT Hm HN HD. rewrite <- grand_total in *. rewrite (pick_count _ _ _ _ _ pc_wi md HR _ _ (chain_ev md HR) (chain_nn md HR) m N P HT Hm HN).
  - rewrite <- (pc_len _ _ _ _ _ _ _ CH). f_equal. f_equal. apply map_ext_in. intros i Hi. apply In_zrange in Hi. destruct (zget_lt prs i ltac:(lia)) as [pr Ei]. rewrite Ei. f_equal. apply map_ext. intros x. rewrite (point_rate _ i pr x Ei). reflexivity.
  - intros i Hi. rewrite <- (pc_len _ _ _ _ _ _ _ CH) in Hi. destruct (zget_lt prs i Hi) as [pr Ei]. rewrite (proc_total _ i pr Ei). apply HD. eapply zget_In; eauto.
Qed.
End Chain.
