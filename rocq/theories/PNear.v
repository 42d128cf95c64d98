(** Proofs: the surroundings of a site, computed; plain processes keep one particle at every site. *)
From Verif Require Import PBase SModel SGeo SEvent SBuild SPlain SStep SBucket SPossible SRates PLattice PProcess PMatcher PPerform PStep PGeo PPossible PRun PEffect PRematch PEvent PBuild PPlain PRow PStepInv PBucket PRegular PPyProcess PIdeal PChain.
From Coq Require Import ZifyBool.
Open Scope string_scope.
Open Scope list_scope.
Open Scope Z_scope.

Lemma nearest_window p P v : 0 < P -> window1 p P (nearest p P v).
Proof.
  intros HP ->. unfold nearest. pose proof (Z.mod_pos_bound (2 * v + P) (2 * P) ltac:(lia)) as B. pose proof (Z.div_mod (2 * v + P) (2 * P) ltac:(lia)) as D.
  set (m := (2 * v + P) mod (2 * P)) in *. set (q := (2 * v + P) / (2 * P)) in *. assert (E : m - P = 2 * (v - P * q)) by lia. rewrite E, (Z.mul_comm 2 (v - P * q)), Z.div_mul by lia. lia.
Qed.
Lemma nearest_same p P v : 0 < P -> sameMod p P v (nearest p P v).
Proof.
  intros HP. unfold nearest, sameMod. destruct p; [|reflexivity]. pose proof (Z.div_mod (2 * v + P) (2 * P) ltac:(lia)) as D.
  set (m := (2 * v + P) mod (2 * P)) in *. set (q := (2 * v + P) / (2 * P)) in *. assert (E : m - P = 2 * (v - P * q)) by lia. rewrite E, (Z.mul_comm 2 (v - P * q)), Z.div_mul by lia. exists (- q). lia.
Qed.
Lemma nearest_unique p P v w : 0 < P -> sameMod p P v w -> window1 p P w -> w = nearest p P v.
Proof.
  intros HP HS HW. pose proof (nearest_same p P v HP) as HN. pose proof (nearest_window p P v HP) as HWn. destruct p; cbn [sameMod] in *; [|unfold nearest; exact HS].
  destruct HS as [n ->], HN as [m Em]. specialize (HW eq_refl). specialize (HWn eq_refl). rewrite Em in *. assert (n = m) by nia. subst. reflexivity.
Qed.

Section Near.
Context (L : lattice) (basis : list coord) (WF : wf_lattice L) (WB : wf_basis L basis).
Notation coords := (generateLatticeSites L basis).
Lemma periods : 0 < lt_ra L * lt_unit L /\ 0 < lt_rb L * lt_unit L /\ 0 < lt_rc L * lt_unit L.
Proof using WF. destruct WF. nia. Qed.
Lemma way_shortest x y : shortest L (way L basis x y).
Proof using WF. destruct periods as (A & B & C). repeat split; cbn [way cx cy cz]; apply nearest_window; assumption. Qed.
Lemma way_at x y : 0 <= x < nsites L -> 0 <= y < nsites L -> siteAt L coords x (way L basis x y) y.
Proof using WF WB.
  intros Hx Hy. exists (place L basis x), (place L basis y). split; [apply (place_get L WF basis WB); exact Hx|]. split; [apply (place_get L WF basis WB); exact Hy|].
  destruct periods as (A & B & C). repeat split; cbn [way csub cx cy cz]; apply nearest_same; assumption.
Qed.
Lemma way_unique x y d : 0 <= x < nsites L -> siteAt L coords x d y -> shortest L d -> d = way L basis x y /\ 0 <= y < nsites L.
Proof using WF WB.
  intros Hx (a & b & Ea & Eb & S1 & S2 & S3) (W1 & W2 & W3). pose proof (zget_range _ _ _ Eb) as Hy. rewrite (lattice_sites_len L WF basis (proj1 WB)) in Hy. split; [|exact Hy].
  rewrite (place_get L WF basis WB x Hx) in Ea. rewrite (place_get L WF basis WB y Hy) in Eb. injection Ea as <-. injection Eb as <-. destruct periods as (A & B & C).
  destruct d as [d1 d2 d3]. cbn [way csub cx cy cz] in *. unfold way. f_equal; apply nearest_unique; assumption.
Qed.
Lemma surroundings_near cut2 x ys ds : 0 <= x < nsites L -> surroundings L coords cut2 x ys ds -> Permutation ys (nearSites L basis cut2 x) /\ ds = map (way L basis x) ys.
Proof using WF WB.
  intros Hx SU. assert (ED : ds = map (way L basis x) ys).
  { apply PBase.zget_ext. intros j. rewrite zget_map. destruct (zget ys j) as [y|] eqn:Ey.
    - destruct (zget_lt ds j) as [d Ed]; [rewrite <- (su_len _ _ _ _ _ _ SU); eapply zget_range; eauto|]. destruct (su_at _ _ _ _ _ _ SU j y d Ey Ed) as (A & B & _). rewrite Ed. unfold option_map. f_equal. apply (way_unique x y d Hx A B).
    - apply zget_None. apply zget_None in Ey. rewrite <- (su_len _ _ _ _ _ _ SU). exact Ey. }
  split; [|exact ED]. apply NoDup_Permutation; [apply SU|apply NoDup_filter; apply NoDup_zrange|]. intros y. unfold nearSites. rewrite filter_In, In_sites, Z.leb_le. split.
  - intros Hy. apply In_zget in Hy. destruct Hy as [j Ey]. destruct (zget_lt ds j) as [d Ed]; [rewrite <- (su_len _ _ _ _ _ _ SU); eapply zget_range; eauto|].
    destruct (su_at _ _ _ _ _ _ SU j y d Ey Ed) as (A & B & C). destruct (way_unique x y d Hx A B) as [-> Hy]. auto.
  - intros [Hy Hc]. eapply (su_all _ _ _ _ _ _ SU); [apply way_at; assumption|apply way_shortest|exact Hc].
Qed.
End Near.

(** ** One particle at every site *)
Lemma number_map names ns (f : string -> Z) s y t : NoDup names -> In t names -> zget s y = Some (map (fun tn => snd tn + f (fst tn)) (combine names ns)) -> zlen ns = zlen names ->
  numberAt names s y t = (match find (fun tn => String.eqb (fst tn) t) (combine names ns) with Some tn => snd tn | None => 0 end) + f t.
Proof.
  intros ND Ht Ey. unfold numberAt. rewrite Ey. clear Ey. revert ns. induction names as [|a names IH]; intros ns Hl; [destruct Ht|]. destruct ns as [|n ns]; [rewrite zlen_cons in Hl; pose proof (zlen_nonneg names); change (zlen (@nil Z)) with 0 in Hl; lia|].
  cbn [combine map fst snd find]. inversion ND; subst. destruct (String.eqb_spec a t) as [->|Hne]; [cbn [snd]; reflexivity|]. apply IH; [assumption|destruct Ht; [congruence|assumption]|]. rewrite !zlen_cons in Hl. lia.
Qed.
Section One.
Context (ranks : Z) (hash : list Z -> Z) (L : lattice) (basis : list coord) (names : list string) (cf : config) (it : interactions) (prs : list cproc)
        (CH : processesInput ranks L basis names cf it prs).
Definition shaped (s : pstate) : Prop := zlen s = nsites L /\ forall y ns, zget s y = Some ns -> zlen ns = zlen names.
Lemma shaped_start : shaped (numbersIn names cf).
Proof using CH.
  split.
  - unfold numbersIn. rewrite zlen_map. apply (wi_elements _ _ _ _ (pc_wi _ _ _ _ _ _ _ CH)).
  - intros y ns E. unfold numbersIn in E. rewrite zget_map in E. destruct (zget (cf_elements cf) y); [|discriminate]. injection E as <-. apply zlen_map.
Qed.
Lemma shaped_comes s : comesTo L basis names prs (numbersIn names cf) s -> shaped s.
Proof using CH.
  induction 1 as [|s i pr x HC [IH1 IH2] Ei Hx He]; [exact shaped_start|]. split.
  - unfold happened. assert (HS : zlen (sites L) = nsites L) by (unfold sites; rewrite zlen_zrange; pose proof (zlen_nonneg s); lia). rewrite zlen_map, PPyProcess.zlen_combine; lia.
  - intros y ns E. rewrite (happened_get L basis names pr x s y IH1) in E. destruct (zget s y) as [m|] eqn:Ey; [|discriminate]. injection E as <-. specialize (IH2 y m Ey). destruct (find _ _); [|exact IH2].
    rewrite zlen_map, PPyProcess.zlen_combine; lia.
Qed.
Lemma one_comes s : (forall pr, In pr prs -> exists rows, cp_spec pr = Plain rows) -> oneEach names (numbersIn names cf) -> comesTo L basis names prs (numbersIn names cf) s -> oneEach names s.
Proof using CH.
  intros HP H0. destruct (pc_names _ _ _ _ _ _ _ CH) as [ND IN]. induction 1 as [|s i pr x HC IH Ei Hx He]; [exact H0|]. destruct (shaped_comes s HC) as [SL SW].
  intros y ns E. pose proof E as E0. rewrite (happened_get L basis names pr x s y SL) in E. destruct (zget s y) as [m|] eqn:Ey; [|discriminate]. injection E as E. specialize (SW y m Ey).
  destruct (IH y m Ey) as (t & Ht & N1 & N0). destruct (find _ _) as [r|] eqn:Ef.
  2:{ subst ns. exists t. unfold numberAt in *. rewrite E0. rewrite Ey in N1, N0. auto. }
  assert (NA : forall t', In t' names -> numberAt names (happened L basis names pr x s) y t' = numberAt names s y t' + change (br_upd r) t').
  { intros t' Ht'. rewrite <- E in E0. rewrite (number_map names m (change (br_upd r)) _ y t' ND Ht' E0 SW). unfold numberAt. rewrite Ey. reflexivity. }
  apply find_some in Ef. destruct Ef as [Hr Hf]. apply andb_true_iff in Hf. destruct Hf as [Hw Hth]. apply negb_true_iff in Hw.
  destruct (HP pr (zget_In _ _ _ Ei)) as [rows Sp]. unfold cp_rows in Hr. rewrite Sp in Hr. cbn [numberRows] in Hr. apply in_map_iff in Hr. destruct Hr as (r0 & <- & Hr). cbn [numberRow br_c br_before br_upd] in *.
  assert (Hy : 0 <= y < nsites L) by (apply zget_range in Ey; lia). apply In_sites in Hx.
  destruct (cproc_of _ _ _ _ _ _ _ CH i pr Ei) as [p Ep]. pose proof (ui_procs _ _ _ _ _ (pc_ui _ _ _ _ _ _ _ CH) i p Ep) as B. rewrite (spec_of prs i pr Ei), Sp in B. destruct B as (WR & bs & B). destruct (builtPlain_spec _ _ _ _ _ (pc_pt _ _ _ _ _ _ _ CH) B) as [es PO].
  apply In_zget in Hr. destruct Hr as [k Ek]. destruct (row_ml _ _ _ _ _ _ PO k r0 Ek) as (j & e & _ & _ & F). destruct (en_kinds _ _ _ F) as (kb & ka & K1 & K2 & _).
  assert (Hb : In (rw_before r0) names) by (apply IN; eauto). assert (Ha : In (rw_after r0) names) by (apply IN; eauto).
  (* the row finds its particle at y *)
  assert (Eb : t = rw_before r0).
  { unfold canHappen in He. apply andb_true_iff in He. destruct He as [_ He]. rewrite forallb_forall in He. specialize (He (numberRow r0)). unfold cp_rows in He. rewrite Sp in He. cbn [numberRows] in He.
    specialize (He ltac:(apply in_map; eapply zget_In; eauto)). rewrite Hw in He. cbn [orb] in He. apply existsb_exists in He. destruct He as (y' & Hy' & He). apply andb_true_iff in He. destruct He as [T1 T2]. apply In_sites in Hy'.
    cbn [numberRow br_c br_before] in T1. apply (there_spec L (pc_wf _ _ _ _ _ _ _ CH) basis (pc_wb _ _ _ _ _ _ _ CH)) in T1; auto. apply (there_spec L (pc_wf _ _ _ _ _ _ _ CH) basis (pc_wb _ _ _ _ _ _ _ CH)) in Hth; auto.
    assert (y' = y) by (eapply (siteAt_unique L (pc_wf _ _ _ _ _ _ _ CH) basis (pc_wb _ _ _ _ _ _ _ CH)); eauto). subst y'. rewrite forallb_forall in T2. specialize (T2 _ Hb). cbn [numberRow br_before] in T2. rewrite howMany_one, String.eqb_refl in T2. apply Z.leb_le in T2.
    destruct (string_dec t (rw_before r0)) as [|Hne]; [assumption|]. rewrite (N0 _ Hb) in T2 by congruence. lia. }
  subst t. destruct (String.eqb_spec (rw_before r0) (rw_after r0)) as [Eq|Nq].
  - exists (rw_before r0). split; [exact Hb|]. split; [rewrite NA by exact Hb; unfold change; cbn [tfind]; lia|]. intros t' Ht' Hne. rewrite NA by exact Ht'. unfold change. cbn [tfind]. rewrite (N0 t' Ht' Hne). lia.
  - exists (rw_after r0). split; [exact Ha|]. unfold change in NA. cbn [tfind] in NA. split.
    + rewrite NA by exact Ha. destruct (String.eqb_spec (rw_before r0) (rw_after r0)); [congruence|]. rewrite String.eqb_refl, (N0 _ Ha) by congruence. reflexivity.
    + intros t' Ht' Hne. rewrite NA by exact Ht'. destruct (String.eqb_spec (rw_before r0) t') as [<-|Hnb]; [rewrite N1; reflexivity|]. destruct (String.eqb_spec (rw_after r0) t'); [congruence|]. rewrite (N0 t' Ht') by congruence. reflexivity.
Qed.
End One.
