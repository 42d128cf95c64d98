(** From the arguments of the constructors to [chainInput]. *)
From Coq Require Import Reals.
From Verif Require Import PBase SModel SEvent SGeo SBuild SPlain SStep SBucket SPossible PLattice PBuild PEffect PTotal POrder PTypes TTypes PPyProcess TPyProcess TPyBucket TPyLattice PIdeal PRegular PStep PPlain PStepInv.
From Verif Require Export PPyChain.
From Coq Require Import ZifyBool.
Open Scope string_scope.
Open Scope list_scope.
Open Scope Z_scope.

Lemma bare_rowsOf cs b a mvs mvs' : map bare (rowsOf cs b a mvs) = map bare (rowsOf cs b a mvs').
Proof. unfold rowsOf. rewrite !map_map. apply map_ext. intros [[[c x] y] k]. reflexivity. Qed.
Lemma bare_In rows rows' r : Permutation (map bare rows) (map bare rows') -> In r rows -> exists r', In r' rows' /\ bare r' = bare r.
Proof. intros P H. apply (in_map bare), (Permutation_in _ P), in_map_iff in H. destruct H as (r' & E & H). eauto. Qed.
Lemma bare_c rows rows' : Permutation (map bare rows) (map bare rows') -> Permutation (map rw_c rows) (map rw_c rows').
Proof. intros P. apply (Permutation_map (fun t => fst (fst t))) in P. rewrite !map_map in P. exact P. Qed.
Lemma cmpRange_le S x R : 0 < S < 100000 -> 1 <= R -> Z.abs x <= R * S -> cmpRange S x <= R.
Proof.
  intros HS HR H. unfold cmpRange. destruct (Z.ltb_spec x 0).
  - rewrite Z.quot_div_nonneg by nia. assert ((100000 * - x + 99999 * S) / (100000 * S) < R + 1); [|lia]. apply Z.div_lt_upper_bound; nia.
  - rewrite Z.quot_div_nonneg by lia. assert (x / S < R + 1); [|lia]. apply Z.div_lt_upper_bound; nia.
Qed.
Lemma rangeOf_le S es R : 1 <= R -> (forall e, In e es -> cmpRange S (cx (pe_c e)) <= R /\ cmpRange S (cy (pe_c e)) <= R /\ cmpRange S (cz (pe_c e)) <= R) -> rangeOf S es <= R.
Proof.
  unfold rangeOf. intros H1 HE. assert (G : forall m0, m0 <= R -> fold_left (fun m e => Z.max (cmpRange S (cz (pe_c e))) (Z.max (cmpRange S (cy (pe_c e))) (Z.max (cmpRange S (cx (pe_c e))) m))) es m0 <= R); [|apply G; exact H1].
  clear H1. induction es as [|e es IH]; intros m0 Hm; cbn [fold_left]; [exact Hm|]. apply IH; [intros e' He; apply HE; right; exact He|]. destruct (HE e (or_introl eq_refl)). lia.
Qed.
Lemma maxRange_le it R : 1 <= R -> (forall p, In p (in_procs it) -> pr_range p <= R) -> maxRange it <= R.
Proof.
  unfold maxRange. intros H1. generalize (in_procs it). intros l HE. assert (G : forall m0, m0 <= R -> fold_left (fun m p => Z.max m (pr_range p)) l m0 <= R); [|apply G; exact H1].
  clear H1. induction l as [|p l IH]; intros m0 Hm; cbn [fold_left]; [exact Hm|]. apply IH; [intros e' He; apply HE; right; exact He|]. specialize (HE p (or_introl eq_refl)). lia.
Qed.
(** no two of the reconstructed vectors start at one position *)
Lemma moves_distinct S cs b a moves mvs : zlen b = zlen cs -> zlen a = zlen cs -> checkMoveVectors S (centred cs) b a moves = Ok mvs ->
  (moves = VNone \/ exists m, readsMoves moves m /\ NoDup (map (fun iv => startOf (zlen cs) (fst iv)) m)) -> NoDup (starts (zlen cs) mvs).
Proof.
  intros Lb La H [->|(m & RM & ND)].
  - unfold checkMoveVectors in H. destruct (reconstruct_cases (centred cs) b a) as [(i & j & ci & cj & SW & Ei & Ej & E)|[_ E]]; rewrite ?centred_zlen; auto; rewrite E in H; cbn [MPy.obind] in H.
    + destruct (applyMoves _ _ _ _ _ _) as [moved|]; cbn [MPy.obind] in H; [|discriminate]. destruct (listEq _ _ _); [|discriminate]. injection H as <-.
      destruct SW as (L & _ & _ & _ & R1 & R2 & _). cbn [starts map fst]. rewrite !startOf_nonneg by lia. constructor; [intros [X|[]]; lia|]. constructor; [intros []|constructor].
    + injection H as <-. constructor.
  - unfold checkMoveVectors in H. rewrite given_read in H by (eapply readsMoves_none; exact RM). apply readsMoves_ok in RM. rewrite RM in H. cbn [MPy.obind] in H.
    destruct (applyMoves _ _ _ _ _ _) as [moved|]; cbn [MPy.obind] in H; [|discriminate]. destruct (listEq _ _ _); [|discriminate]. injection H as <-. exact ND.
Qed.
Lemma readsNames_fun v l m : readsNames v l -> readsNames v m -> l = m.
Proof. unfold readsNames. intros -> H. injection H as H. apply strs_inj in H. exact H. Qed.

Record backed (S : Z) (pt : tmap) (number : Z) (pr : iproc) (p : kproc) (proc : process) : Prop := {
  bk_like : likeProc pr (mkIP (ip_rate pr) (ip_basis pr) (kpRows p));
  bk_first : zget (map rw_c (kpRows p)) 0 = Some czero;
  bk_wild : forall r, In r (kpRows p) -> (rw_before r = "*" <-> rw_after r = "*");
  bk_built : builtPlain S pt (kpRows p) [ip_basis pr] proc;
  bk_rate : pr_rate proc = ip_rate pr;
  bk_nonneg : 0 <= ip_rate pr;
  bk_basis : pr_basis proc = [ip_basis pr];
  bk_number : pr_number proc = number;
  bk_custom : pr_custom proc = false;
  bk_range : pr_range proc = rangeOf S (pr_ml proc) }.
Lemma proc_backend S pt nbasis number a p pr : 0 < S < 100000 -> wfPT pt ->
  KMCProcess S (pa_coordinates a) (pa_before a) (pa_after a) (pa_moves a) (pa_basis a) (pa_rate a) = Ok p -> describes a pr ->
  (forall r, In r (ip_rows pr) -> (exists k, tfind pt (rw_before r) = Some k) /\ exists k, tfind pt (rw_after r) = Some k) -> ip_basis pr < nbasis ->
  exists proc, backendProcess S pt nbasis None number (KPlainP p) = Ok (Some proc) /\ backed S pt number pr p proc.
Proof.
  intros HS WP HP (cs & b & af & Rc & Rb & Ra & Er & Rbas & Rrate & Rm) HK Hb.
  assert (MD : made S p) by (do 6 eexists; exact HP).
  destruct (KMCProcess_inv _ _ _ _ _ _ _ _ HP) as (cs' & b' & a' & mvs & B & EB & ER).
  assert (cs' = cs) by (eapply readsCoords_fun; [apply B|exact Rc]). subst cs'.
  assert (b' = b) by (eapply readsNames_fun; [apply B|exact Rb]). subst b'.
  assert (a' = af) by (eapply readsNames_fun; [apply B|exact Ra]). subst a'.
  assert (kp_basis p = [ip_basis pr]) by (apply readsBasis_ok in Rbas; congruence). assert (kp_rate p = ip_rate pr) by (apply readsRate_ok in Rrate; congruence).
  pose proof (bb_lb _ _ _ _ _ _ _ _ _ _ B) as Lb. pose proof (bb_la _ _ _ _ _ _ _ _ _ _ B) as La.
  assert (ND : NoDup (starts (zlen cs) mvs)) by (eapply moves_distinct; [exact Lb|exact La|apply B|exact Rm]).
  assert (HS' : 0 < S <= 100000000) by lia.
  pose proof (kpRows_perm _ _ _ _ _ _ _ _ _ _ B HS' ND) as P. pose proof (kpRows_movesGiven _ _ _ _ _ _ _ _ _ _ B HS' ND) as MG.
  assert (PB : Permutation (map bare (ip_rows pr)) (map bare (kpRows p))).
  { rewrite Er. unfold plainRows. rewrite (bare_rowsOf cs b af [] mvs). apply Permutation_map. symmetry. exact P. }
  destruct (made_zlen S p MD) as [L1 L2]. destruct (rowsOf_cols (kp_coords p) (kp_before p) (kp_after p) (kp_moves p) L1 L2) as (C1 & C2 & C3). fold (kpRows p) in C1, C2, C3.
  assert (HKp : forall s, In s (kp_before p) \/ In s (kp_after p) -> exists k, tfind pt s = Some k).
  { intros s. rewrite <- C2, <- C3, !in_map_iff. intros [(r & <- & Hr)|(r & <- & Hr)]; destruct (bare_In _ _ r (Permutation_sym PB) Hr) as (r' & Hr' & E); injection E as _ E1 E2; destruct (HK r' Hr') as [A1 A2]; rewrite E1 in A1; rewrite E2 in A2; assumption. }
  destruct (plain_backend S HS' pt WP nbasis None number p MD HKp) as (proc & f & g & X & EF & EG & _). exists proc. split; [exact X|].
  assert (HD : hd czero (kp_coords p) = czero) by (rewrite (kp_coords_rows _ _ _ _ _ _ _ _ _ _ B); apply (rows_head _ _ _ _ _ _ _ _ _ _ B)).
  assert (EC : map rw_c (kpRows p) = kp_coords p). { rewrite C1, HD. rewrite <- (map_id (kp_coords p)) at 2. apply map_ext. intros c. coords. }
  assert (EQB : map (fun r => [rw_before r]) (kpRows p) = map (fun s => [s]) (kp_before p)) by (rewrite <- C2, map_map; reflexivity).
  assert (EQA : map (fun r => [rw_after r]) (kpRows p) = map (fun s => [s]) (kp_after p)) by (rewrite <- C3, map_map; reflexivity).
  assert (EM : mkProcess S f g (kp_rate p) (filter (fun b => b <? nbasis) (kp_basis p)) (map fst (kp_moves p)) (map snd (kp_moves p)) number = Some proc).
  { cbn [backendProcess] in X. rewrite <- EC, <- EQB, <- EQA, EF, EG in X. cbn [obind] in X. injection X as X. exact X. }
  assert (FB : filter (fun b => b <? nbasis) (kp_basis p) = [ip_basis pr]). { rewrite H. cbn [filter]. destruct (Z.ltb_spec (ip_basis pr) nbasis); [reflexivity|lia]. }
  rewrite FB in EM. pose proof (mkProcess_fields _ _ _ _ _ _ _ _ _ EM) as EFL.
  constructor.
  - split; [reflexivity|]. split; [reflexivity|]. exact PB.
  - rewrite EC. assert (NE : kp_coords p <> []). { rewrite (kp_coords_rows _ _ _ _ _ _ _ _ _ _ B). intros E. apply map_eq_nil in E. pose proof (rows_zlen _ _ _ _ _ _ _ _ _ _ B) as Z1. rewrite E in Z1. symmetry in Z1. cbn in Z1. apply zlen_0 in Z1. exact (bb_ne _ _ _ _ _ _ _ _ _ _ B Z1). }
    destruct (kp_coords p) as [|c l]; [congruence|]. cbn [hd] in HD. rewrite HD. reflexivity.
  - intros r Hr. pose proof (bb_wild _ _ _ _ _ _ _ _ _ _ B) as W. destruct (bare_In _ _ r (Permutation_sym PB) Hr) as (r' & Hr' & E). injection E as _ E1 E2. rewrite <- E1, <- E2. rewrite Er in Hr'. apply In_zget in Hr'. destruct Hr' as [k Hk].
    destruct (rowsOf_cols cs b af [] Lb La) as (_ & D2 & D3). fold (plainRows cs b af) in D2, D3.
    assert (K1 : zget b k = Some (rw_before r')) by (rewrite <- D2, zget_map, Hk; reflexivity). assert (K2 : zget af k = Some (rw_after r')) by (rewrite <- D3, zget_map, Hk; reflexivity).
    pose proof (f_equal (fun l => zget l k) W) as Wk. cbv beta in Wk. rewrite !zget_map, K1, K2 in Wk. unfold option_map in Wk. assert (Wk' : String.eqb "*" (rw_before r') = String.eqb "*" (rw_after r')) by congruence. clear Wk.
    destruct (String.eqb_spec "*" (rw_before r')), (String.eqb_spec "*" (rw_after r')); try discriminate; split; intros; congruence.
  - exists f, g, (map fst (kp_moves p)), (map snd (kp_moves p)), (kp_rate p), number. split; [exact EF|]. split; [exact EG|]. split; [exact MG|]. left. exact EM.
  - rewrite EFL. cbn [pr_rate]. congruence.
  - destruct Rrate. assumption.
  - rewrite EFL. reflexivity.
  - rewrite EFL. reflexivity.
  - rewrite EFL. reflexivity.
  - rewrite EFL. cbn [pr_range pr_ml]. reflexivity.
Qed.

(** all processes *)
Lemma procs_backend S pt nbasis : 0 < S < 100000 -> wfPT pt -> forall l ps prs n,
  Forall2 (fun a p => KMCProcess S (pa_coordinates a) (pa_before a) (pa_after a) (pa_moves a) (pa_basis a) (pa_rate a) = Ok p) l ps -> Forall2 describes l prs ->
  (forall pr, In pr prs -> ip_basis pr < nbasis /\ forall r, In r (ip_rows pr) -> (exists k, tfind pt (rw_before r) = Some k) /\ exists k, tfind pt (rw_after r) = Some k) ->
  exists procs, oall (fun ip => backendProcess S pt nbasis None (fst ip) (snd ip)) (combine (zseq n (length ps)) (map KPlainP ps)) = Ok (map Some procs) /\ zlen procs = zlen prs /\ zlen ps = zlen prs /\
    forall i pr p proc, zget prs i = Some pr -> zget ps i = Some p -> zget procs i = Some proc -> backed S pt (n + i) pr p proc.
Proof.
  intros HS WP l ps prs n F. revert prs n. induction F as [|a p l ps HP F IH]; intros prs n D HK; inversion D as [|? pr ? prs' Ha D']; subst.
  - exists []. split; [reflexivity|]. split; [reflexivity|]. split; [reflexivity|]. intros i pr p proc H. rewrite zget_nil in H. discriminate.
  - destruct (HK pr (or_introl eq_refl)) as [K1 K2]. destruct (proc_backend S pt nbasis n a p pr HS WP HP Ha K2 K1) as (proc & E & B).
    destruct (IH prs' (n + 1) D') as (procs & EP & L1 & L2 & G); [intros pr' Hp; apply HK; right; exact Hp|].
    exists (proc :: procs). cbn [length zseq map combine oall fst snd]. rewrite E. cbn [MPy.obind]. rewrite EP. cbn [MPy.obind map]. split; [reflexivity|]. rewrite !zlen_cons, L1, L2. split; [reflexivity|]. split; [reflexivity|].
    intros i pr' p' proc' H1 H2 H3. rewrite zget_cons in H1. rewrite zget_cons in H2. rewrite zget_cons in H3. destruct (Z.eqb_spec i 0) as [->|].
    + injection H1 as <-. injection H2 as <-. injection H3 as <-. rewrite Z.add_0_r. exact B.
    + replace (n + i) with (n + 1 + (i - 1)) by lia. apply (G (i - 1)); assumption.
Qed.
Lemma omap_Some {A} (l : list A) : omap (fun p => p) (map Some l) = Some l.
Proof. induction l as [|x l IH]; [reflexivity|]. cbn [map omap]. rewrite IH. reflexivity. Qed.
(** less room is needed for a smaller reach *)
Lemma uniform_le L R R' : R' <= R -> uniform L R -> uniform L R'.
Proof. unfold uniform, uniformAxis. intros H (A & B & C). intuition lia. Qed.
Lemma inReach_le L basis R R' b v : R' <= R -> inReach L basis R' b v -> inReach L basis R b v.
Proof.
  intros H (b' & be & be' & i & j & k & E1 & E2 & A & B & C & D). exists b', be, be', i, j, k. split; [exact E1|]. split; [exact E2|].
  assert (G : forall p rep d, reach1 p rep R' d -> reach1 p rep R d). { intros p rep d. unfold reach1. destruct p; [|auto]. intros (n & Hn). exists n. lia. }
  auto 7.
Qed.
Lemma clean_le S L basis R R' b : R' <= R -> cleanPts S (inReach L basis R b) -> cleanPts S (inReach L basis R' b).
Proof. intros H C v w Hv Hw. apply C; eapply inReach_le; eauto. Qed.

(** ** the configuration *)
Lemma fits_or possible present : possibleFits possible present \/ possibleTypes possible (sortedSet present) = Raise KmcError.
Proof.
  destruct (possibleTypes possible (sortedSet present)) as [x|e] eqn:E; [left; eapply possibleTypes_cases; exact E|]. right.
  unfold possibleTypes in E. destruct possible as [| | | | |l| |]; cbn [MPy.obind] in E; try (injection E as <-; reflexivity).
  - destruct (existsb _ _); [injection E as <-; reflexivity|discriminate].
  - destruct (oall _ l) as [names|e'] eqn:E1; cbn [MPy.obind] in E.
    + destruct (forallb _ _); cbn [MPy.obind] in E; [|injection E as <-; reflexivity]. destruct (existsb _ _); [injection E as <-; reflexivity|discriminate].
    + injection E as <-. destruct (oall_error (fun t => match t with VStr s => Ok s | _ => Raise KmcError end) l) as [[ns X] | X]; [|congruence|congruence]. intros v _. destruct v; eauto.
Qed.
Lemma types_read S L types default possible c s : wf_lattice L -> KMCConfiguration S L types default possible = Ok c -> readsTypes L types default s -> kc_types c = KPlain s.
Proof.
  intros WF H (Hl & [[-> ->]|(l & es & d & -> & NE & -> & HE & HI & HG)]).
  - cbn [KMCConfiguration] in H. unfold detectTypesFormat in H. rewrite strs_all in H. cbn [MPy.obind] in H. rewrite <- Hl, checkTypes_ok in H. cbn [MPy.obind] in H. destruct (possibleTypes possible _); cbn [MPy.obind] in H; [|discriminate]. injection H as <-. reflexivity.
  - destruct (C41_long S L l d possible es WF NE HE HI) as (ts & T1 & T2 & T3 & T4).
    assert (ts = s). { apply PBase.zget_ext. intros x. destruct (Z_lt_dec x 0) as [|]; [rewrite !(proj2 (zget_None _ _)) by lia; reflexivity|]. destruct (Z_lt_dec x (nsites L)) as [|]; [|rewrite !(proj2 (zget_None _ _)) by lia; reflexivity].
      destruct (site_of_index L WF x ltac:(lia)) as (i & j & k & m & Hs & ->). rewrite (T2 _ _ _ _ Hs), (HG _ _ _ _ Hs). reflexivity. }
    subst ts. destruct (fits_or possible s) as [HF|HF]; [destruct (T3 HF) as (c' & E & Ec); rewrite E in H; injection H as <-; exact Ec|]. rewrite T4 in H; [discriminate|]. intros F. apply possibleTypes_ok in F. congruence.
Qed.

Lemma usable_find S L types default possible c s t : KMCConfiguration S L types default possible = Ok c -> kc_types c = KPlain s -> (forall names, possible = VList (map VStr names) -> NoDup names) ->
  usable possible s t -> exists k, tfind (kc_possible c) t = Some k.
Proof.
  intros H HT HD HU. destruct (C43_numbers_partial _ _ _ _ _ _ H HD) as (names & _ & _ & HF & HN & HP & _). destruct HU as [-> |HU]; [exists 0; apply HF; reflexivity|].
  assert (I : In t names). { destruct possible as [| | | | |l| |] eqn:EP; cbn [possibleNames] in HU; try (apply (HP t); unfold presentIn; rewrite HT; apply (proj1 (sortedSet_In _ _)); exact HU).
    destruct (KMCConfiguration_possible _ _ _ _ _ _ H) as (present & [[X _]|(names' & X & _)] & _); [discriminate|]. injection X as X. rewrite X in HU, HN. rewrite flat_strs in HU. rewrite (HN _ eq_refl). exact HU. }
  apply In_zget in I. destruct I as [j Ej]. pose proof (zget_range _ _ _ Ej). exists (j + 1). apply HF. rewrite zget_cons. destruct (Z.eqb_spec (j + 1) 0); [lia|]. replace (j + 1 - 1) with j by lia. exact Ej.
Qed.
Lemma Forall2_at {A B} (P : A -> B -> Prop) l m : Forall2 P l m -> forall i b, zget m i = Some b -> exists a, zget l i = Some a /\ P a b.
Proof.
  induction 1 as [|x y l m H F IH]; intros i b Hi; [rewrite zget_nil in Hi; discriminate|]. rewrite zget_cons in Hi. rewrite zget_cons. destruct (i =? 0); [injection Hi as <-; eauto|]. apply IH. exact Hi.
Qed.
Lemma Forall2_from {A B} (P : A -> B -> Prop) : forall l m, zlen l = zlen m -> (forall i a b, zget l i = Some a -> zget m i = Some b -> P a b) -> Forall2 P l m.
Proof.
  induction l as [|x l IH]; intros [|y m] HL H; try (rewrite zlen_cons, zlen_nil in HL; pose proof (zlen_nonneg l); lia) || (rewrite zlen_cons, zlen_nil in HL; pose proof (zlen_nonneg m); lia) || constructor.
  - apply (H 0); reflexivity.
  - apply IH; [rewrite !zlen_cons in HL; lia|]. intros i a b Ha Hb. pose proof (zget_range _ _ _ Ha). apply (H (i + 1)); rewrite zget_cons; destruct (Z.eqb_spec (i + 1) 0); try lia; replace (i + 1 - 1) with i by lia; assumption.
Qed.
Lemma oall_processes S l ps : oall (fun p => KMCProcess S (pa_coordinates p) (pa_before p) (pa_after p) (pa_moves p) (pa_basis p) (pa_rate p)) l = Ok ps <->
  Forall2 (fun a p => KMCProcess S (pa_coordinates a) (pa_before a) (pa_after a) (pa_moves a) (pa_basis a) (pa_rate a) = Ok p) l ps.
Proof. apply oall_Forall2. Qed.
Lemma oall_given {A} (l : list A) : oall (fun p => match p with Some q => Ok q | None => Raise KmcError end) (map Some l) = Ok l.
Proof. induction l as [|x l IH]; [reflexivity|]. cbn [map oall MPy.obind]. rewrite IH. reflexivity. Qed.
Lemma likeProc_placed L basis pr rows b : placed L basis false b (map rw_c (ip_rows pr)) -> Permutation (map bare (ip_rows pr)) (map bare rows) -> zget (map rw_c rows) 0 = Some czero -> placed L basis false b (map rw_c rows).
Proof.
  intros [P1 P2 P3] P F. pose proof (bare_c _ _ P) as PC. constructor; [exact F|exact (Permutation_NoDup PC P2)|]. intros c Hc. apply P3. exact (Permutation_in _ (Permutation_sym PC) Hc).
Qed.

Lemma simulation_input ranks S a kl kc ki L basis s prs R : 1 <= ranks -> script S a = Ok (kl, kc, ki) -> wellPosed S a L basis s prs R ->
  exists cf it prs', kl_lat kl = L /\ wf_lattice L /\ kc_types kc = KPlain s /\ modelInput S kl kc ki = Ok (Some (cf, it)) /\ shows cf s /\ chainInput ranks L basis cf it prs' /\ likeChain L basis prs prs'.
Proof.
  intros HR H W. unfold script in H.
  destruct (KMCUnitCell S (sa_cell a) (sa_points a)) as [u|] eqn:EU; cbn [MPy.obind] in H; [|discriminate].
  destruct (KMCLattice S (Some u) (sa_repetitions a) (sa_periodic a)) as [kl'|] eqn:EL; cbn [MPy.obind] in H; [|discriminate].
  destruct (KMCConfiguration S (kl_lat kl') _ _ _) as [kc'|] eqn:EC; cbn [MPy.obind] in H; [|discriminate].
  destruct (oall _ (sa_processes a)) as [ps|] eqn:EP; cbn [MPy.obind] in H; [|discriminate].
  destruct (KMCInteractions _ _ _) as [ki'|] eqn:EI; cbn [MPy.obind] in H; [|discriminate]. injection H as -> -> ->.
  pose proof (wp_unit _ _ _ _ _ _ _ W) as HS.
  (* the lattice *)
  destruct (C67_sites S _ _ _ _ u kl ltac:(lia) EU EL) as (ra & rb & rc & pa & pb & pc & ps0 & R1 & R2 & R3 & E1 & WF & LS & _ & HB). cbv zeta in *.
  assert (ps0 = basis) by (eapply readsCoords_fun; [exact R3|apply W]). subst ps0.
  assert (KL : kl_lat kl = L).
  { destruct (wp_lattice _ _ _ _ _ _ _ W) as (ra' & rb' & rc' & pa' & pb' & pc' & Q1 & Q2 & ->). apply repetitions_ok in R1, Q1. apply periodic_ok in R2, Q2. rewrite R1 in Q1. rewrite R2 in Q2. injection Q1 as -> -> ->. injection Q2 as -> -> ->. exact E1. }
  destruct (HB (wp_distinct _ _ _ _ _ _ _ W)) as (WB & _). clear HB.
  assert (SI : kl_sites kl = generateLatticeSites L basis).
  { apply C67_lattice in EL. destruct EL as (ra' & rb' & rc' & pa' & pb' & pc' & _ & _ & X). cbv zeta in X. rewrite X in KL |- *. cbn [kl_lat kl_sites] in *. rewrite KL. f_equal.
    apply C67_unit_cell in EU. destruct EU as (v1 & v2 & v3 & bs & -> & _ & _ & RB & _). cbn [uc_basis]. eapply readsCoords_fun; [exact RB|apply W]. }
  rewrite KL in *. assert (LU : lt_unit L = S) by (rewrite E1; reflexivity). assert (LN : lt_nb L = zlen basis) by (rewrite E1; reflexivity).
  (* the configuration *)
  pose proof (types_read _ _ _ _ _ _ _ WF EC (wp_types _ _ _ _ _ _ _ W)) as KT.
  destruct (C43_numbers_partial _ _ _ _ _ _ EC (wp_possible _ _ _ _ _ _ _ W)) as (names & WPT & _ & _ & _ & HPR & _).
  assert (HLS : zlen s = nsites L) by apply (wp_types _ _ _ _ _ _ _ W).
  destruct (mkConfiguration_total (kc_possible kc) (generateLatticeSites L basis) (map (fun t => [t]) s) WPT) as [cf ECF].
  { rewrite zlen_map, (lattice_sites_len L WF) by apply WB. congruence. }
  { intros e He. apply in_map_iff in He. destruct He as (t & <- & Ht). split; [discriminate|]. intros t' [<-|[]]. destruct (HPR t) as (_ & k & _ & K); [unfold presentIn; rewrite KT; exact Ht|eauto]. }
  pose proof (mkConfiguration_info _ _ _ _ ECF) as CI.
  (* the processes *)
  apply oall_processes in EP.
  assert (IDX : forall pr, In pr prs -> ip_basis pr < zlen basis).
  { intros pr Hpr. destruct (pl_leads _ _ _ _ _ (wp_placed _ _ _ _ _ _ _ W pr Hpr) czero) as (b' & be & be' & i & j & k & Eb & _); [eapply zget_In; apply (wp_placed _ _ _ _ _ _ _ W pr Hpr)|]. apply zget_range in Eb. lia. }
  destruct (procs_backend S (kc_possible kc) (zlen basis) HS WPT (sa_processes a) ps prs 0 EP (wp_processes _ _ _ _ _ _ _ W)) as (procs & EPR & LP & LPS & BK).
  { intros pr Hpr. split; [apply IDX; exact Hpr|]. intros r Hr. destruct (wp_usable _ _ _ _ _ _ _ W pr r Hpr Hr) as [U1 U2]. split; eapply usable_find; eauto; apply W. }
  set (prs' := map (fun x => mkIP (ip_rate (fst x)) (ip_basis (fst x)) (kpRows (snd x))) (combine prs ps)).
  assert (G' : forall i, zget prs' i = match zget prs i, zget ps i with Some pr, Some p => Some (mkIP (ip_rate pr) (ip_basis pr) (kpRows p)) | _, _ => None end).
  { intros i. unfold prs'. rewrite zget_map, zget_combine. destruct (zget prs i), (zget ps i); reflexivity. }
  assert (LP' : zlen prs' = zlen prs) by (unfold prs'; rewrite zlen_map, zlen_combine; lia).
  assert (BK' : forall i proc, zget procs i = Some proc -> exists pr p, zget prs i = Some pr /\ zget ps i = Some p /\ backed S (kc_possible kc) i pr p proc).
  { intros i proc Hi. pose proof (zget_range _ _ _ Hi). destruct (zget_lt prs i) as [pr Hpr]; [lia|]. destruct (zget_lt ps i) as [p Hp]; [lia|]. exists pr, p. split; [exact Hpr|]. split; [exact Hp|]. exact (BK i pr p proc Hpr Hp Hi). }
  (* the interactions *)
  assert (NE : zlen ps <> 0 /\ ki = mkKI (map KPlainP ps) true None).
  { unfold KMCInteractions in EI. rewrite zlen_map in EI. destruct (Z.eqb_spec (zlen ps) 0); [discriminate|]. split; [assumption|].
    replace (map (fun p => Some (KPlainP p)) ps) with (map Some (map KPlainP ps)) in EI by (rewrite map_map; reflexivity). rewrite oall_given in EI. cbn [MPy.obind] in EI. destruct (wp_wild _ _ _ _ _ _ _ W) as [-> | ->] in EI; injection EI as <-; reflexivity. }
  destruct NE as [NE ->].
  set (it := mkInteractions procs true false noCalculator).
  assert (KN : forallb (fun p => forallb (known (kc_possible kc)) (presentTypes p)) (map KPlainP ps) = true).
  { apply forallb_forall. intros q Hq. apply in_map_iff in Hq. destruct Hq as (p & <- & Hp). apply In_zget in Hp. destruct Hp as [i Hi]. pose proof (zget_range _ _ _ Hi). destruct (zget_lt prs i) as [pr Hpr]; [lia|]. destruct (zget_lt procs i) as [proc Hproc]; [lia|].
    pose proof (BK i pr p proc Hpr Hi Hproc) as B. apply forallb_forall. intros v Hv. cbn [presentTypes] in Hv. apply in_map_iff in Hv. destruct Hv as (t & <- & Ht). cbn [known].
    assert (MD : made S p). { destruct (Forall2_at _ _ _ EP _ _ Hi) as (ar & _ & Har). do 6 eexists. exact Har. }
    destruct (made_zlen S p MD) as [L1 L2]. destruct (rowsOf_cols (kp_coords p) (kp_before p) (kp_after p) (kp_moves p) L1 L2) as (_ & C2 & C3). fold (kpRows p) in C2, C3.
    assert (X : exists r, In r (kpRows p) /\ (t = rw_before r \/ t = rw_after r)). { apply in_app_or in Ht. rewrite <- C2, <- C3, !in_map_iff in Ht. destruct Ht as [(r & <- & Hr)|(r & <- & Hr)]; eauto. }
    destruct X as (r & Hr & Et). destruct (bk_like _ _ _ _ _ _ B) as (_ & _ & PB). cbn [ip_rows] in PB. destruct (bare_In _ _ r (Permutation_sym PB) Hr) as (r' & Hr' & E). injection E as _ X1 X2.
    destruct (wp_usable _ _ _ _ _ _ _ W pr r' (zget_In _ _ _ Hpr) Hr') as [U1 U2].
    destruct Et as [-> | ->]; [rewrite <- X1; destruct (usable_find _ _ _ _ _ _ _ _ EC KT (wp_possible _ _ _ _ _ _ _ W) U1) as [k ->]|rewrite <- X2; destruct (usable_find _ _ _ _ _ _ _ _ EC KT (wp_possible _ _ _ _ _ _ _ W) U2) as [k ->]]; reflexivity. }
  assert (MI : modelInput S kl kc (mkKI (map KPlainP ps) true None) = Ok (Some (cf, it))).
  { unfold modelInput, backendConfiguration, backendElements. rewrite KT. cbn [MPy.obind]. rewrite SI, ECF. unfold backendInteractions, backendProcesses. cbn [ki_processes ki_wild ki_plugin]. rewrite KN. rewrite KL, LN.
    replace (combine (zrange 0 (zlen (map KPlainP ps) - 1)) (map KPlainP ps)) with (combine (zseq 0 (length ps)) (map KPlainP ps)).
    - change (fun ip : Z * kprocess => backendProcess S (kc_possible kc) (zlen basis) (customOf S (mkKI (map KPlainP ps) true None) (fst ip)) (fst ip) (snd ip)) with (fun ip : Z * kprocess => backendProcess S (kc_possible kc) (zlen basis) None (fst ip) (snd ip)).
      rewrite EPR. cbn [MPy.obind]. rewrite omap_Some. reflexivity.
    - unfold zrange. rewrite zlen_map. unfold zlen. do 2 f_equal. unfold MConfig.length. lia. }
  exists cf, it, prs'. split; [reflexivity|]. split; [exact WF|]. split; [exact KT|]. split; [exact MI|]. split; [exact (ci_elements _ _ _ _ CI)|].
  (* reach *)
  destruct (wp_reach _ _ _ _ _ _ _ W) as [R1' RB].
  assert (MR : maxRange it <= R).
  { apply maxRange_le; [exact R1'|]. intros proc Hp. cbn [in_procs it mkInteractions] in Hp. apply In_zget in Hp. destruct Hp as [i Hi]. destruct (BK' i proc Hi) as (pr & p & Hpr & Hps & B). rewrite (bk_range _ _ _ _ _ _ B). apply rangeOf_le; [exact R1'|].
    intros e He. destruct (builtPlain_spec _ _ _ _ _ WPT (bk_built _ _ _ _ _ _ B)) as [es PO]. apply In_zget in He. destruct He as [j Ej]. destruct (ml_row _ _ _ _ _ _ PO j e Ej) as (k & r & Er & _ & EF). rewrite (en_c _ _ _ EF).
    destruct (bk_like _ _ _ _ _ _ B) as (_ & _ & PB). cbn [ip_rows] in PB. destruct (bare_In _ _ r (Permutation_sym PB) (zget_In _ _ _ Er)) as (r' & Hr' & E). injection E as X0 _ _. rewrite <- X0. destruct (RB pr r' (zget_In _ _ _ Hpr) Hr') as (B1 & B2 & B3).
    split; [|split]; apply cmpRange_le; assumption. }
  assert (UN : uniform L (maxRange it)) by (eapply uniform_le; [exact MR|apply W]).
  assert (PLC : forall i pr p proc, zget prs i = Some pr -> backed S (kc_possible kc) i pr p proc -> placed L basis false (ip_basis pr) (map rw_c (kpRows p))).
  { intros i pr p proc Hpr B. destruct (bk_like _ _ _ _ _ _ B) as (_ & _ & PB). cbn [ip_rows] in PB. eapply likeProc_placed; [apply (wp_placed _ _ _ _ _ _ _ W pr (zget_In _ _ _ Hpr))|exact PB|apply B]. }
  split.
  - constructor.
    + constructor; [constructor|].
      * constructor; try (exact WF); try (exact HR).
        -- rewrite (ci_coords _ _ _ _ CI). apply (lattice_sites_len L WF). apply WB.
        -- rewrite (omap_zlen _ _ _ (ci_types _ _ _ _ CI)), zlen_map. exact HLS.
        -- rewrite (ci_elements _ _ _ _ CI), zlen_map. exact HLS.
        -- intros i proc Hi. destruct (BK' i proc Hi) as (pr & p & _ & _ & B). rewrite (bk_custom _ _ _ _ _ _ B). reflexivity.
        -- intros i proc x Hi. destruct (BK' i proc Hi) as (pr & p & _ & _ & B). destruct (builtPlain_spec _ _ _ _ _ WPT (bk_built _ _ _ _ _ _ B)) as [es PO]. apply PO.
      * rewrite (ci_ptypes _ _ _ _ CI). exact WPT.
      * rewrite (ci_ptypes _ _ _ _ CI). eauto.
      * destruct UN as (A1 & A2 & A3). unfold uniformAxis in *. split; [|split]; intros X; [destruct A1 as [[_ Y]|[Y _]]|destruct A2 as [[_ Y]|[Y _]]|destruct A3 as [[_ Y]|[Y _]]]; congruence || exact Y.
      * lia.
      * intros i proc Hi. destruct (BK' i proc Hi) as (pr & p & Hpr & Hps & B). rewrite (ci_ptypes _ _ _ _ CI), LU. unfold rowsOfProc. rewrite G', Hpr, Hps. cbn [ip_rows builtFrom]. split.
        -- split; [eapply pl_nodup; eapply PLC; eauto|apply B].
        -- eexists. apply B.
      * rewrite (ci_ptypes _ _ _ _ CI). eauto.
    + constructor; [exact WB|apply CI|exact UN|lia| | |].
      * intros b Hb. rewrite LU. eapply clean_le; [exact MR|]. apply (wp_clean _ _ _ _ _ _ _ W). lia.
      * intros t Ht. destruct (omap_In _ _ _ _ (ci_types _ _ _ _ CI) Ht) as (e & He & Eb). rewrite (ci_ptypes _ _ _ _ CI). destruct (names_wf _ _ WPT (ci_names _ _ _ _ CI)) as [N1 _]. rewrite (bucketOf_len _ _ _ _ Eb), N1. pose proof (zlen_nonneg (kc_possible kc)). lia.
      * rewrite (ci_ptypes _ _ _ _ CI). destruct (maxType_wf _ WPT). lia.
    + reflexivity.
    + reflexivity.
    + intros X. rewrite X in LP'. cbn in LP'. lia.
    + cbn [in_procs it mkInteractions]. lia.
    + intros i pr' proc Hi' Hi. cbn [in_procs it mkInteractions] in Hi. destruct (BK' i proc Hi) as (pr & p & Hpr & Hps & B). rewrite G', Hpr, Hps in Hi'. injection Hi' as <-. cbn [ip_rate ip_basis ip_rows].
      split; [apply B|]. split; [apply B|]. split; [apply B|]. split; [apply B|]. rewrite (bk_custom _ _ _ _ _ _ B). eapply PLC; eauto.
  - split.
    + apply Forall2_from; [lia|]. intros i pr pr' Hpr Hi'. rewrite G', Hpr in Hi'. destruct (zget ps i) as [p|] eqn:Hp; [|discriminate]. injection Hi' as <-. pose proof (zget_range _ _ _ Hp). destruct (zget_lt procs i) as [proc Hproc]; [lia|]. apply (BK i pr p proc Hpr Hp Hproc).
    + intros pr Hpr. split; [eapply placed_apart; [exact WF|apply (wp_placed _ _ _ _ _ _ _ W pr Hpr)]|apply (wp_placed _ _ _ _ _ _ _ W pr Hpr)].
Qed.
