(** From the arguments of the process constructors to the backend, for plain and bucket processes, with and without a rate calculator. *)
From Coq Require Import Reals.
From Verif Require Import PBase SModel SEvent SGeo SBuild SPlain SStep SBucket SPossible PLattice PBuild PBucket PEffect PTotal POrder PTypes TTypes PPyProcess TPyProcess TPyBucket TPyLattice TPyInter PIdeal PRegular PStep PPlain PStepInv PPyChain PPyChain2.
From Verif Require Export PPyChain3.
From Coq Require Import ZifyBool.
Open Scope string_scope.
Open Scope list_scope.
Open Scope Z_scope.

Record backed2 (S : Z) (pt : tmap) (g : option plugin) (number k : Z) (pr : cproc) (p : kprocess) (sp : pspec) (proc : process) : Prop := {
  b2_like : likeSpec (cp_spec pr) sp;
  b2_first : zget (positions sp) 0 = Some czero;
  b2_built : builtFrom S pt sp proc;
  b2_rate : pr_rate proc = k;
  b2_nonneg : 0 <= k;
  b2_basis : pr_basis proc = [cp_basis pr];
  b2_number : pr_number proc = number;
  b2_custom : pr_custom proc = isGiven g;
  b2_range : match g with
             | None => pr_range proc = rangeOf S (pr_ml proc)
             | Some g => pr_cut2 proc = sight S g pr /\ (pr_cache proc = true <-> caches g number) /\ pr_range proc = Z.sqrt (pr_cut2 proc) / S
             end;
  b2_known : forallb (known pt) (presentTypes p) = true }.

Lemma range_none S pt nbasis number p proc : backendProcess S pt nbasis None number p = Ok (Some proc) -> pr_range proc = rangeOf S (pr_ml proc).
Proof.
  intros H. destruct p as [q|b]; cbn [backendProcess] in H.
  - injection H as H. ob H as f F. ob H as g G. apply mkProcess_fields in H. rewrite H. reflexivity.
  - destruct (backendElements _) as [els|]; cbn [MPy.obind] in H; [|discriminate]. destruct (updateMaps _) as [upd|]; cbn [MPy.obind] in H; [|discriminate]. injection H as H. ob H as f F. apply mkProcess_fields in H. rewrite H. reflexivity.
Qed.
(** what [arrives] says, in the terms of the user *)
Lemma arrives_backed S nbasis g number p proc pr sp : arrives S nbasis g number p proc -> positionsOf p = positions sp -> likeSpec (cp_spec pr) sp -> zget (positions sp) 0 = Some czero ->
  pr_number proc = number /\ pr_custom proc = isGiven g /\
  match g with None => True | Some g => pr_cut2 proc = sight S g pr /\ (pr_cache proc = true <-> caches g number) /\ pr_range proc = Z.sqrt (pr_cut2 proc) / S end.
Proof.
  intros (A1 & _ & _ & m & (c0 & E0 & B & c & Hc & Ec) & A4) EP K F0. split; [exact A1|]. rewrite EP in *. rewrite F0 in E0. injection E0 as <-.
  assert (Z0 : forall c, csub c czero = c) by (intros; coords). assert (EM : furthest (positions (cp_spec pr)) = m).
  { rewrite (furthest_perm _ _ (like_positions _ _ K)). apply furthest_is; [intros c' Hc'; specialize (B _ Hc'); rewrite Z0 in B; exact B|]. exists c. rewrite Z0 in Ec. auto. }
  destruct g as [g|]; [|split; [apply A4|exact I]]. destruct A4 as (A4 & A5 & A6 & A7). split; [exact A4|]. split; [|split; [exact A5|exact A7]]. unfold seenWithin in A6. unfold sight. rewrite EM. exact A6.
Qed.
Lemma plainRows_In cs b af r : zlen b = zlen cs -> zlen af = zlen cs -> In r (plainRows cs b af) -> In (rw_before r) b /\ In (rw_after r) af.
Proof. intros Lb La Hr. destruct (rowsOf_cols cs b af [] Lb La) as (_ & D2 & D3). fold (plainRows cs b af) in D2, D3. split; [apply (in_map rw_before) in Hr; rewrite D2 in Hr|apply (in_map rw_after) in Hr; rewrite D3 in Hr]; exact Hr. Qed.

Lemma plain_backend2 S pt nbasis g number names a p k pr : 0 < S < 100000 -> wfPT pt -> (forall t, In t names -> exists j, tfind pt t = Some j) ->
  KMCProcess S (pa_coordinates a) (pa_before a) (pa_after a) (pa_moves a) (pa_basis a) (pa_rate a) = Ok p -> describesPlain names a k pr -> NoDup (positions (cp_spec pr)) -> cp_basis pr < nbasis ->
  exists proc, backendProcess S pt nbasis (customOf S (mkKI [] true g) number) number (KPlainP p) = Ok (Some proc) /\ backed2 S pt g number k pr (KPlainP p) (Plain (kpRows p)) proc.
Proof.
  intros HS WP HN HP (cs & b & af & Rc & Rb & Ra & Ib & Ia & Er & Rbas & Rrate & Rm) NDP Hb.
  assert (MD : made S p) by (do 6 eexists; exact HP).
  destruct (KMCProcess_inv _ _ _ _ _ _ _ _ HP) as (cs' & b' & a' & mvs & B & EB & ER).
  assert (cs' = cs) by (eapply readsCoords_fun; [apply B|exact Rc]). subst cs'.
  assert (b' = b) by (eapply readsNames_fun; [apply B|exact Rb]). subst b'.
  assert (a' = af) by (eapply readsNames_fun; [apply B|exact Ra]). subst a'.
  assert (KB : kp_basis p = [cp_basis pr]) by (apply readsBasis_ok in Rbas; congruence). assert (KR : kp_rate p = k) by (apply readsRate_ok in Rrate; congruence).
  pose proof (bb_lb _ _ _ _ _ _ _ _ _ _ B) as Lb. pose proof (bb_la _ _ _ _ _ _ _ _ _ _ B) as La.
  assert (ND : NoDup (starts (zlen cs) mvs)) by (eapply moves_distinct; [exact Lb|exact La|apply B|exact Rm]).
  assert (HS' : 0 < S <= 100000000) by lia.
  pose proof (kpRows_perm _ _ _ _ _ _ _ _ _ _ B HS' ND) as P. pose proof (kpRows_movesGiven _ _ _ _ _ _ _ _ _ _ B HS' ND) as MG.
  assert (PB : Permutation (map bare (plainRows cs b af)) (map bare (kpRows p))).
  { unfold plainRows. rewrite (bare_rowsOf cs b af [] mvs). apply Permutation_map. symmetry. exact P. }
  destruct (made_zlen S p MD) as [L1 L2]. destruct (rowsOf_cols (kp_coords p) (kp_before p) (kp_after p) (kp_moves p) L1 L2) as (C1 & C2 & C3). fold (kpRows p) in C1, C2, C3.
  assert (HKp : forall s, In s (kp_before p) \/ In s (kp_after p) -> exists j, tfind pt s = Some j).
  { intros s. rewrite <- C2, <- C3, !in_map_iff. intros [(r & <- & Hr)|(r & <- & Hr)]; destruct (bare_In _ _ r (Permutation_sym PB) Hr) as (r' & Hr' & E); injection E as _ E1 E2; destruct (plainRows_In _ _ _ _ Lb La Hr') as [A1 A2]; apply HN; [apply Ib|apply Ia]; congruence. }
  destruct (plain_backend S HS' pt WP nbasis (customOf S (mkKI [] true g) number) number p MD HKp) as (proc & f & h & X & EF & EG & DD). exists proc. split; [exact X|].
  assert (HD : hd czero (kp_coords p) = czero) by (rewrite (kp_coords_rows _ _ _ _ _ _ _ _ _ _ B); apply (rows_head _ _ _ _ _ _ _ _ _ _ B)).
  assert (EC : map rw_c (kpRows p) = kp_coords p). { rewrite C1, HD. rewrite <- (map_id (kp_coords p)) at 2. apply map_ext. intros c. coords. }
  assert (K : likeSpec (cp_spec pr) (Plain (kpRows p))) by (rewrite Er; exact PB).
  assert (F0 : zget (positions (Plain (kpRows p))) 0 = Some czero).
  { cbn [positions]. rewrite EC. assert (NE : kp_coords p <> []). { rewrite (kp_coords_rows _ _ _ _ _ _ _ _ _ _ B). intros E. apply map_eq_nil in E. pose proof (rows_zlen _ _ _ _ _ _ _ _ _ _ B) as Z1. rewrite E in Z1. symmetry in Z1. cbn in Z1. apply zlen_0 in Z1. exact (bb_ne _ _ _ _ _ _ _ _ _ _ B Z1). }
    destruct (kp_coords p) as [|c l]; [congruence|]. cbn [hd] in HD. rewrite HD. reflexivity. }
  assert (AR : arrives S nbasis g number (KPlainP p) proc) by (apply (process_arrives S pt nbasis (mkKI [] true g) number (KPlainP p) proc L1 X)).
  destruct (arrives_backed _ _ _ _ _ _ pr (Plain (kpRows p)) AR (eq_sym EC) K F0) as (N1 & N2 & N3). destruct AR as (_ & AR & AB & _). cbn [rateOf basisOf] in AR, AB.
  assert (FB : filter (fun b => b <? nbasis) (kp_basis p) = [cp_basis pr]). { rewrite KB. cbn [filter]. destruct (Z.ltb_spec (cp_basis pr) nbasis); [reflexivity|lia]. }
  constructor.
  - exact K.
  - exact F0.
  - cbn [builtFrom]. split.
    + split; [apply (Permutation_NoDup (like_positions _ _ K) NDP)|].
      intros r Hr. pose proof (bb_wild _ _ _ _ _ _ _ _ _ _ B) as W. destruct (bare_In _ _ r (Permutation_sym PB) Hr) as (r' & Hr' & E). injection E as _ E1 E2. rewrite <- E1, <- E2. apply In_zget in Hr'. destruct Hr' as [j Hj].
      destruct (rowsOf_cols cs b af [] Lb La) as (_ & D2 & D3). fold (plainRows cs b af) in D2, D3.
      assert (K1 : zget b j = Some (rw_before r')) by (rewrite <- D2, zget_map, Hj; reflexivity). assert (K2 : zget af j = Some (rw_after r')) by (rewrite <- D3, zget_map, Hj; reflexivity).
      pose proof (f_equal (fun l => zget l j) W) as Wk. cbv beta in Wk. rewrite !zget_map, K1, K2 in Wk. unfold option_map in Wk. assert (Wk' : String.eqb "*" (rw_before r') = String.eqb "*" (rw_after r')) by congruence. clear Wk.
      destruct (String.eqb_spec "*" (rw_before r')), (String.eqb_spec "*" (rw_after r')); try discriminate; split; intros; congruence.
    + eexists. exists f, h, (map fst (kp_moves p)), (map snd (kp_moves p)), (kp_rate p), number. split; [exact EF|]. split; [exact EG|]. split; [exact MG|]. destruct DD as [DD|(cut & cache & DD)]; [left; exact DD|right; eauto].
  - congruence.
  - destruct Rrate. assumption.
  - congruence.
  - exact N1.
  - exact N2.
  - destruct g as [g|]; [exact N3|]. exact (range_none _ _ _ _ _ _ X).
  - cbn [presentTypes]. apply forallb_forall. intros v Hv. apply in_map_iff in Hv. destruct Hv as (t & <- & Ht). cbn [known]. apply in_app_or in Ht. destruct (HKp t Ht) as [j ->]. reflexivity.
Qed.

Lemma bucket_backend2 S pt nbasis g number names a b k pr : 0 < S < 100000 -> wfPT pt -> (forall t, In t names -> exists j, tfind pt t = Some j) ->
  KMCBucketProcess S (ba_coordinates a) (ba_minimum a) (ba_update a) (ba_basis a) (ba_rate a) = Ok b -> describesBucket names a k pr -> cp_basis pr < nbasis ->
  exists rows proc, backendProcess S pt nbasis (customOf S (mkKI [] true g) number) number (KBucketP b) = Ok (Some proc) /\ backed2 S pt g number k pr (KBucketP b) (Bucket rows) proc.
Proof.
  intros HS WP HN HP (cs & entries & needs & changes & rows0 & Rc & ES & F2 & RU & LN & LC & LR0 & SAY & HNeed & HCh & Er & Rbas & Rrate) Hb.
  destruct (C65_backend S pt nbasis (customOf S (mkKI [] true g) number) number _ _ _ _ _ b cs entries needs changes WP HP Rc ES F2 RU LC) as (rows & proc & bs & r & RB & RR & X & BU & PR & PBS & LR & ROWS).
  { intros n Hn. apply (HNeed n Hn). }
  { intros n s Hn Hs. apply HN. apply (proj2 (HNeed n Hn)). exact Hs. }
  { intros n s Hn Hs. apply HN. apply (proj1 (HCh n Hn)). exact Hs. }
  exists rows, proc. split; [exact X|].
  assert (NE : cs <> []). { intros E. subst cs. unfold KMCBucketProcess in HP. destruct (checkCoordinateList (ba_coordinates a)) as [cs'|] eqn:E1; cbn [MPy.obind] in HP; [|discriminate]. pose proof (checkCoordinateList_ne _ _ E1) as NE. pose proof (proj2 (readsCoords_ok (ba_coordinates a) cs' NE) E1) as Rc'. apply NE. eapply readsCoords_fun; eauto. }
  destruct cs as [|c0 cs0] eqn:ECS; [congruence|]. rewrite <- ECS in *. assert (G0 : zget cs 0 = Some c0) by (rewrite ECS; reflexivity).
  assert (ROW : forall i r, zget rows i = Some r -> exists c n ch, zget cs i = Some c /\ zget needs i = Some n /\ zget changes i = Some ch /\ saysRow c0 c n ch r).
  { intros i r' Hr. pose proof (zget_range _ _ _ Hr). destruct (zget_lt cs i) as [c Ec]; [lia|]. destruct (zget_lt needs i) as [n En]; [lia|]. destruct (zget_lt changes i) as [ch Ech]; [lia|]. destruct (ROWS i c n ch c0 G0 Ec En Ech) as (r2 & E2 & SR). assert (r2 = r') by congruence. subst r2. exists c, n, ch. auto. }
  assert (K : likeSpec (cp_spec pr) (Bucket rows)).
  { rewrite Er. cbn [likeSpec]. apply Forall2_from; [lia|]. intros i r1 r2 H1 H2. destruct (ROW i r2 H2) as (c & n & ch & Ec & En & Ech & SR). pose proof (SAY i c n ch c0 r1 G0 Ec En Ech H1) as SR1.
    split; [rewrite (sr_place _ _ _ _ _ SR1), (sr_place _ _ _ _ _ SR); reflexivity|]. split; intros s; [rewrite (sr_needed _ _ _ _ _ SR1), (sr_needed _ _ _ _ _ SR)|rewrite (sr_change _ _ _ _ _ SR1), (sr_change _ _ _ _ _ SR)]; reflexivity. }
  assert (POS : positions (Bucket rows) = centred cs).
  { cbn [positions]. apply PBase.zget_ext. intros i. rewrite zget_map, centred_zget. destruct (zget rows i) as [r'|] eqn:Ei.
    - destruct (ROW i r' Ei) as (c & n & ch & Ec & _ & _ & SR). rewrite Ec. cbn [option_map]. rewrite (sr_place _ _ _ _ _ SR), ECS. reflexivity.
    - apply zget_None in Ei. rewrite (proj2 (zget_None cs i)) by lia. reflexivity. }
  assert (F0 : zget (positions (Bucket rows)) 0 = Some czero) by (rewrite POS, centred_zget, G0, ECS; cbn [option_map hd]; f_equal; coords).
  assert (NB : bs = [cp_basis pr] /\ r = k). { apply readsBasis_ok in RB, Rbas. apply readsRate_ok in RR, Rrate. split; congruence. } destruct NB as [-> ->].
  assert (FB : filter (fun x => x <? nbasis) [cp_basis pr] = [cp_basis pr]). { cbn [filter]. destruct (Z.ltb_spec (cp_basis pr) nbasis); [reflexivity|lia]. }
  assert (CO : constructed S (KBucketP b)) by (do 5 eexists; exact HP).
  pose proof (process_arrives S pt nbasis (mkKI [] true g) number (KBucketP b) proc (constructed_lengths _ _ CO) X) as AR.
  assert (KC : kb_coords b = centred cs /\ exists ms, oall (normaliseEntry S) entries = Ok ms /\ kb_match b = ms).
  { unfold KMCBucketProcess in HP. destruct (checkCoordinateList (ba_coordinates a)) as [cs'|] eqn:E1; cbn [MPy.obind] in HP; [|discriminate]. pose proof (checkCoordinateList_ne _ _ E1) as NE'. pose proof (proj2 (readsCoords_ok (ba_coordinates a) cs' NE') E1) as Rc'.
    assert (cs' = cs) by (eapply readsCoords_fun; eauto). subst cs'. destruct (checkBasis _); cbn [MPy.obind] in HP; [|discriminate]. destruct (checkRate _); cbn [MPy.obind] in HP; [|discriminate]. rewrite ES in HP. destruct (oall (normaliseEntry S) entries) as [ms|] eqn:E4; cbn [MPy.obind] in HP; [|discriminate].
    destruct (negb _); [discriminate|]. destruct (oall _ (concat ms)); cbn [MPy.obind] in HP; [|discriminate].
    assert (E5 : oall (fun m => normaliseEntry S (VList (map VTuple m))) ms = Ok ms).
    { apply oall_Forall2. apply oall_Forall2 in E4. clear - E4 F2. revert needs F2. induction E4 as [|v m entries ms Hv E4 IH]; intros needs F2; inversion F2; subst; constructor; [|eapply IH; eauto]. match goal with H : entryOf v = Some ?y |- _ => exact (C40_idempotent S v y m H Hv) end. }
    rewrite E5 in HP. cbn [MPy.obind] in HP. injection HP as <-. cbn [kb_coords kb_match]. split; [apply centred_twice|]. exists ms. split; [reflexivity|reflexivity]. }
  destruct KC as (KC & ms & E4 & KM).
  destruct (arrives_backed _ _ _ _ _ _ pr (Bucket rows) AR) as (N1 & N2 & N3); [cbn [positionsOf]; rewrite POS; exact KC|exact K|exact F0|].
  assert (NR : rows <> []) by (intros Z0; rewrite Z0, zlen_nil in LR; rewrite ECS, zlen_cons in LR; pose proof (zlen_nonneg cs0); lia).
  constructor.
  - exact K.
  - exact F0.
  - cbn [builtFrom]. split; [|eexists; exact BU]. split; [exact NR|]. intros r' Hr. apply In_zget in Hr. destruct Hr as [i Ei]. destruct (ROW i r' Ei) as (c & n & ch & Ec & En & Ech & SR). split; [apply SR|].
    destruct (tfind (br_upd r') "*") as [z|] eqn:ET; [|reflexivity]. exfalso. apply (proj2 (HCh ch (zget_In _ _ _ Ech))). apply (sr_only _ _ _ _ _ SR). clear - ET. induction (br_upd r') as [|[y w] m IH]; [discriminate|]. cbn [tfind] in ET. cbn [map fst]. destruct (String.eqb_spec y "*") as [->|]; [left; reflexivity|right; auto].
  - exact PR.
  - destruct Rrate. assumption.
  - rewrite PBS. exact FB.
  - exact N1.
  - exact N2.
  - destruct g as [g|]; [exact N3|]. exact (range_none _ _ _ _ _ _ X).
  - cbn [presentTypes]. rewrite KM. apply forallb_forall. intros v Hv. apply in_flat_map in Hv. destruct Hv as (t & Ht & Hv). apply in_concat in Ht. destruct Ht as (m & Hm & Ht).
    apply oall_Forall2 in E4. assert (Y : exists n, In n needs /\ omap itemT m = Some (totals n)).
    { clear - E4 F2 Hm. revert needs F2. induction E4 as [|v m' entries ms Hv E4 IH]; intros needs F2; [destruct Hm|]. inversion F2 as [|? y ? needs' H1 F2' ]; subst. destruct Hm as [<-|Hm]; [|destruct (IH Hm needs' F2') as (n & I & E); exists n; split; [right; exact I|exact E]].
      exists y. split; [left; reflexivity|]. destruct (C40_normalises S v y H1) as (m'' & R1 & R2 & _ & _). rewrite Hv in R1. injection R1 as <-. cbn [entryOf] in R2. rewrite omap_itemOf in R2. exact R2. }
    destruct Y as (n & Hn & EM). pose proof EM as EM'. apply In_zget in Ht. destruct Ht as [j Ej]. pose proof (omap_zget _ _ _ j EM) as EJ. rewrite Ej in EJ. cbn [obind] in EJ. apply zget_range in Ej as Hj. rewrite <- (omap_zlen _ _ _ EM') in Hj. destruct (zget_lt (totals n) j Hj) as [[q s] Eq]. rewrite Eq in EJ. symmetry in EJ.
    apply itemT_inv in EJ. destruct EJ as (z & -> & _). destruct Hv as [<-|[]]. cbn [known]. assert (I : In s (map snd n)). { apply firsts_In. rewrite <- totals_names. change s with (snd (q, s)). apply in_map. eapply zget_In; exact Eq. }
    destruct (HN s (proj2 (HNeed n Hn) s I)) as [j' ->]. reflexivity.
Qed.

(** all processes *)
Lemma procs_backend2 S pt nbasis g names : 0 < S < 100000 -> wfPT pt -> (forall t, In t names -> exists j, tfind pt t = Some j) -> forall l ps kprs n,
  Forall2 (fun a p => makeProcess S a = Ok p) l ps -> Forall2 (describesAny names) l kprs ->
  (forall k pr, In (k, pr) kprs -> cp_basis pr < nbasis /\ NoDup (positions (cp_spec pr))) ->
  exists sps procs, oall (fun ip => backendProcess S pt nbasis (customOf S (mkKI [] true g) (fst ip)) (fst ip) (snd ip)) (combine (zseq n (length ps)) ps) = Ok (map Some procs) /\
    zlen procs = zlen kprs /\ zlen ps = zlen kprs /\ zlen sps = zlen kprs /\
    forall i k pr p sp proc, zget kprs i = Some (k, pr) -> zget ps i = Some p -> zget sps i = Some sp -> zget procs i = Some proc -> backed2 S pt g (n + i) k pr p sp proc.
Proof.
  intros HS WP HN l ps kprs n F. revert kprs n. induction F as [|a p l ps HP F IH]; intros kprs n D HK; inversion D as [|? [k pr] ? kprs' Ha D']; subst.
  - exists [], []. split; [reflexivity|]. split; [reflexivity|]. split; [reflexivity|]. split; [reflexivity|]. intros i k pr p sp proc H. rewrite zget_nil in H. discriminate.
  - destruct (HK k pr (or_introl eq_refl)) as [K1 K2].
    assert (X : exists sp proc, backendProcess S pt nbasis (customOf S (mkKI [] true g) n) n p = Ok (Some proc) /\ backed2 S pt g n k pr p sp proc).
    { destruct a as [a|a]; cbn [makeProcess describesAny fst snd] in HP, Ha.
      - destruct (KMCProcess _ _ _ _ _ _ _) as [q|] eqn:EQ; cbn [MPy.obind] in HP; [|discriminate]. injection HP as <-. destruct (plain_backend2 S pt nbasis g n names a q k pr HS WP HN EQ Ha K2 K1) as (proc & X & B). eauto.
      - destruct (KMCBucketProcess _ _ _ _ _ _) as [q|] eqn:EQ; cbn [MPy.obind] in HP; [|discriminate]. injection HP as <-. destruct (bucket_backend2 S pt nbasis g n names a q k pr HS WP HN EQ Ha K1) as (rows & proc & X & B). eauto. }
    destruct X as (sp & proc & E & B). destruct (IH kprs' (n + 1) D') as (sps & procs & EP & L1 & L2 & L3 & G); [intros k' pr' Hp; apply (HK k' pr'); right; exact Hp|].
    exists (sp :: sps), (proc :: procs). cbn [length zseq map combine oall fst snd]. rewrite E. cbn [MPy.obind]. rewrite EP. cbn [MPy.obind map]. split; [reflexivity|]. rewrite !zlen_cons, L1, L2, L3. split; [reflexivity|]. split; [reflexivity|]. split; [reflexivity|].
    intros i k' pr' p' sp' proc' H1 H2 H3 H4. rewrite zget_cons in H1. rewrite zget_cons in H2. rewrite zget_cons in H3. rewrite zget_cons in H4. destruct (Z.eqb_spec i 0) as [->|].
    + injection H1 as <- <-. injection H2 as <-. injection H3 as <-. injection H4 as <-. rewrite Z.add_0_r. exact B.
    + replace (n + i) with (n + 1 + (i - 1)) by lia. apply (G (i - 1)); assumption.
Qed.
