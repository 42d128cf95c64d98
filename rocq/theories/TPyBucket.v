(** Theorems about the arguments of the process constructors: C44 (all arguments), C65 (bucket processes reach the backend as given). *)
From Verif Require Import PTypes TTypes PTotal PPyProcess TPyProcess PBucket.
From Verif Require Import SPyProcess STypes SBucket.
From Verif Require Export SPyRow.
Open Scope string_scope.
Open Scope list_scope.
Open Scope Z_scope.

Lemma readsBasis_ok v bs : readsBasis v bs <-> checkBasis v = Ok bs.
Proof.
  unfold readsBasis, checkBasis, seqOf. destruct (asSeq v) as [l|]; cbn [MPy.obind]; [|split; [intros (l & ? & _)|]; discriminate]. split.
  - intros (l' & E & NE & F & P). injection E as <-. destruct (Z.eqb_spec (zlen l) 0) as [Z0|_]; [apply zlen_0 in Z0; congruence|]. apply oall_Forall2. clear NE. induction F as [|x b l bs Hx F IH]; [constructor|]. constructor; [|apply IH; intros; apply P; now right].
    rewrite Hx. assert (0 <= b) by (apply P; now left). destruct (Z.ltb_spec b 0); [lia|reflexivity].
  - destruct (Z.eqb_spec (zlen l) 0) as [|NZ]; [discriminate|]. intros H. apply oall_Forall2 in H. exists l. split; [reflexivity|]. split; [intros ->; apply NZ; reflexivity|].
    clear NZ. induction H as [|x b l bs Hx F [IH1 IH2]]; [split; [constructor|intros b []]|]. destruct (asInt x) as [z|] eqn:E; [|discriminate]. destruct (Z.ltb_spec z 0); [discriminate|]. injection Hx as <-.
    split; [now constructor|]. intros b [<-|Hb]; [lia|auto].
Qed.
Lemma readsRate_ok v r : readsRate v r <-> checkRate v = Ok r.
Proof.
  unfold readsRate, checkRate. split.
  - intros [-> H]. destruct (Z.ltb_spec r 0); [lia|reflexivity].
  - destruct v as [| | |f| | | |]; try discriminate. destruct f as [x| | |]; try discriminate. destruct (Z.ltb_spec x 0); [discriminate|]. intros E. injection E as <-. auto.
Qed.

(** ** C44: exactly which arguments the constructor of a process accepts, when move vectors are given *)
Theorem C44_arguments S coordinates before after moves basis rate : 0 < S <= 100000000 -> moves <> VNone ->
  ((exists p, KMCProcess S coordinates before after moves basis rate = Ok p) <->
   exists cs b a mvs bs r, readsCoords coordinates cs /\ cs <> [] /\ readsNames before b /\ readsNames after a /\ zlen b = zlen cs /\ zlen a = zlen cs /\
     (forall k, zget b k = Some "*" <-> zget a k = Some "*") /\ b <> a /\ readsMoves moves mvs /\ explain cs b a mvs /\ readsBasis basis bs /\ readsRate rate r).
Proof.
  intros HS N.
  assert (WILD : forall b a : list string, zlen b = zlen a -> (map (String.eqb "*") b = map (String.eqb "*") a <-> forall k, zget b k = Some "*" <-> zget a k = Some "*")).
  { intros b a L. split.
    - intros E k. pose proof (f_equal (fun l => zget l k) E) as X. cbn beta in X. rewrite !zget_map in X. destruct (zget b k) as [x|], (zget a k) as [y|]; cbn [option_map] in X; try discriminate; [|easy]. assert (X' : String.eqb "*" x = String.eqb "*" y) by congruence. clear X. revert X'.
      destruct (String.eqb_spec "*" x) as [<-|Hx], (String.eqb_spec "*" y) as [<-|Hy]; intros X; try discriminate; [easy|]. split; intros Y; injection Y as ->; congruence.
    - intros H. apply PBase.zget_ext. intros k. rewrite !zget_map. specialize (H k). destruct (zget b k) as [x|] eqn:Ex, (zget a k) as [y|] eqn:Ey; cbn [option_map]; [|apply zget_range in Ex; apply zget_None in Ey; lia|apply zget_range in Ey; apply zget_None in Ex; lia|reflexivity].
      f_equal. destruct (String.eqb_spec "*" x) as [<-|Hx], (String.eqb_spec "*" y) as [<-|Hy]; try reflexivity; exfalso; [apply Hy|apply Hx]; [assert (X : Some y = Some "*") by now apply H|assert (X : Some x = Some "*") by now apply H]; congruence. }
  split.
  - intros [p H]. pose proof H as H'. apply KMCProcess_inv in H. destruct H as (cs & b & a & mvs & B & E1 & E2). destruct (checkMoveVectors_inv S cs b a moves mvs HS (bb_lb _ _ _ _ _ _ _ _ _ _ B) (bb_la _ _ _ _ _ _ _ _ _ _ B) N (bb_moves _ _ _ _ _ _ _ _ _ _ B)) as [M1 M2].
    exists cs, b, a, mvs, (kp_basis p), (kp_rate p). pose proof (bb_lb _ _ _ _ _ _ _ _ _ _ B). pose proof (bb_la _ _ _ _ _ _ _ _ _ _ B). repeat (split; [apply B|]). split; [apply WILD; [lia|apply B]|]. split; [apply B|]. split; [exact M1|]. split; [exact M2|]. split; [now apply readsBasis_ok|now apply readsRate_ok].
  - intros (cs & b & a & mvs & bs & r & R1 & NE & R2 & R3 & Lb & La & W & D & M & X & RB & RR). apply readsBasis_ok in RB. apply readsRate_ok in RR. apply (C44_accepts S coordinates before after moves basis rate cs b a mvs bs r); auto. apply WILD; [lia|exact W].
Qed.
(** The basis sites and the rate the process holds are the ones given. *)
Theorem C44_basis_rate S coordinates before after moves basis rate p : KMCProcess S coordinates before after moves basis rate = Ok p -> readsBasis basis (kp_basis p) /\ readsRate rate (kp_rate p).
Proof. intros H. apply KMCProcess_inv in H. destruct H as (cs & b & a & mvs & B & E1 & E2). split; [now apply readsBasis_ok|now apply readsRate_ok]. Qed.
(** The backend gets the rate given and the basis sites that exist in the cell, under the number of the process in the list; with a rate calculator it is a custom rate process. *)
Theorem C44_backend_data S pt nbasis custom number coordinates before after moves basis rate p proc : KMCProcess S coordinates before after moves basis rate = Ok p ->
  backendProcess S pt nbasis custom number (KPlainP p) = Ok (Some proc) -> exists bs r, readsBasis basis bs /\ readsRate rate r /\
    pr_rate proc = r /\ (forall b, In b (pr_basis proc) <-> In b bs /\ b < nbasis) /\ pr_number proc = number /\ (pr_custom proc = true <-> custom <> None).
Proof.
  intros H E. destruct (C44_basis_rate _ _ _ _ _ _ _ _ H) as [RB RR]. exists (kp_basis p), (kp_rate p). split; [exact RB|]. split; [exact RR|]. cbn [backendProcess] in E. injection E as E. ob E as f F. ob E as g G.
  assert (HB : forall b, In b (filter (fun x => x <? nbasis) (kp_basis p)) <-> In b (kp_basis p) /\ b < nbasis) by (intros b; rewrite filter_In; split; intros [A B]; (split; [exact A|]); [now apply Z.ltb_lt|now apply Z.ltb_lt]).
  destruct custom as [[cut cache]|].
  - unfold mkCustomProcess in E. ob E as q Q. injection E as <-. unfold mkProcess in Q. ob Q as acc A. ob Q as l B. injection Q as <-. cbn. split; [reflexivity|]. split; [exact HB|]. split; [reflexivity|]. split; [discriminate|reflexivity].
  - unfold mkProcess in E. ob E as acc A. ob E as l B. injection E as <-. cbn. split; [reflexivity|]. split; [exact HB|]. split; [reflexivity|]. split; [discriminate|congruence].
Qed.
Example C44_rejects : KMCProcess 10 (pyCoords [mkC 5 5 5; mkC 5 5 15]) (pyNames ["A"; "V"]) (pyNames ["V"; "A"]) VNone (pyBasis [0]) (VFloat (FNum (-1))) = Raise KmcError /\
  KMCProcess 10 (pyCoords [mkC 5 5 5; mkC 5 5 15]) (pyNames ["A"; "V"]) (pyNames ["V"; "A"]) VNone (pyBasis [-1]) (VFloat (FNum 1)) = Raise KmcError /\
  isOk (KMCProcess 10 (pyCoords [mkC 5 5 5; mkC 5 5 15]) (pyNames ["A"; "V"]) (pyNames ["V"; "A"]) (pyMoves [(0, mkC 0 0 10); (1, mkC 0 0 (-10))]) (pyBasis [0]) (VFloat (FNum 1))) = true.
Proof. split; [reflexivity|]. split; reflexivity. Qed.

(** ** C65 *)
Lemma howMany_app s a b : SBucket.howMany s (a ++ b) = SBucket.howMany s a + SBucket.howMany s b. Proof. exact (occurs_app s a b). Qed.
Lemma howMany_spread ls : NoDup (map snd ls) -> forall s, SBucket.howMany s (spread ls) = Z.max 0 (STypes.countOf s ls).
Proof.
  induction ls as [|[k x] ls IH]; intros ND s; [reflexivity|]. cbn [map snd] in ND. inversion ND as [|? ? Hn ND']; subst. unfold spread. cbn [flat_map fst snd]. fold (spread ls). rewrite howMany_app, IH by exact ND'. unfold SBucket.howMany at 1. fold (occurs s (repeat x (Z.to_nat k))). rewrite occurs_repeat, countOf_cons.
  destruct (String.eqb_spec x s) as [->|]; [|lia]. rewrite (countOf_none s ls Hn). lia.
Qed.
Lemma totals_names l : map snd (totals l) = firsts (map snd l).
Proof. unfold totals. rewrite map_map. cbn [snd]. apply map_id. Qed.
Lemma countOf_totals s l : STypes.countOf s (totals l) = STypes.countOf s l.
Proof.
  destruct (in_dec string_dec s (map snd l)) as [I|I].
  2: { rewrite (countOf_none s l I). apply countOf_none. rewrite totals_names, firsts_In. exact I. }
  unfold totals. assert (G : forall names, NoDup names -> In s names -> STypes.countOf s (map (fun x => (STypes.countOf x l, x)) names) = STypes.countOf s l).
  { induction names as [|x names IH]; intros ND Hin; [destruct Hin|]. inversion ND as [|? ? Hn ND']; subst. cbn [map]. rewrite countOf_cons. destruct (String.eqb_spec x s) as [->|D].
    - rewrite (countOf_none s (map _ names)); [lia|]. rewrite map_map. cbn [snd]. rewrite map_id. exact Hn.
    - destruct Hin as [->|Hin]; [congruence|]. rewrite IH by assumption. lia. }
  apply G; [apply firsts_NoDup|apply firsts_In; exact I].
Qed.
Lemma change_dset m s k x : change (dset m s k) x = if String.eqb s x then k else change m x.
Proof.
  unfold change. induction m as [|[y w] m IH]; cbn [dset tfind]; [destruct (String.eqb s x); reflexivity|]. destruct (String.eqb_spec y s) as [->|D]; cbn [tfind].
  - destruct (String.eqb s x); reflexivity.
  - destruct (String.eqb_spec y x) as [->|]; [|exact IH]. destruct (String.eqb_spec s x) as [->|]; [congruence|reflexivity].
Qed.
Lemma dset_keys m s k x : In x (map fst (dset m s k)) <-> x = s \/ In x (map fst m).
Proof.
  induction m as [|[y w] m IH]; cbn [dset map fst]; [cbn; intuition|]. destruct (String.eqb_spec y s) as [->|]; cbn [map fst In]; [intuition|]. rewrite IH. intuition.
Qed.
Lemma dset_nodup m s k : NoDup (map fst m) -> NoDup (map fst (dset m s k)).
Proof.
  induction m as [|[y w] m IH]; intros ND; cbn [dset map fst]; [repeat constructor; intros []|]. cbn [map fst] in ND. inversion ND as [|? ? Hn ND']; subst. destruct (String.eqb_spec y s) as [->|D]; cbn [map fst]; [exact ND|]. constructor; [|auto].
  rewrite dset_keys. intros [E|E]; [congruence|auto].
Qed.
(** the map the Python code builds from the changes of one position *)
Definition mapOf (l : list (Z * string)) : tmap := fold_left (fun m sz => dset m (fst sz) (snd sz)) (map (fun kz => (snd kz, fst kz)) l) [].
Lemma mapOf_snoc l kz : mapOf (l ++ [kz]) = dset (mapOf l) (snd kz) (fst kz).
Proof. unfold mapOf. rewrite map_app, fold_left_app. reflexivity. Qed.
Lemma mapOf_spec l : NoDup (map fst (mapOf l)) /\ (forall s, In s (map fst (mapOf l)) <-> In s (map snd l)) /\ forall s, change (mapOf l) s = lastChange l s.
Proof.
  induction l as [|kz l IH] using rev_ind; [repeat split; [constructor|easy|easy]|]. destruct IH as (I1 & I2 & I3). rewrite mapOf_snoc. split; [now apply dset_nodup|]. split.
  - intros s. rewrite dset_keys, I2, map_app, in_app_iff. cbn. intuition.
  - intros s. rewrite change_dset, I3. unfold lastChange. rewrite rev_app_distr. cbn [rev app find]. destruct (String.eqb (snd kz) s); reflexivity.
Qed.
Lemma updateEntry_ok v kz : readsChange v kz -> updateEntry v = Ok (snd kz, fst kz).
Proof. intros (n & rest & E & A). unfold updateEntry. destruct v; try discriminate; cbn [asSeq] in E; injection E as E; rewrite ?E; cbn [MPy.obind snd_ fst_]; rewrite A; reflexivity. Qed.
Lemma updateMap_ok v l : readsChanges v l -> updateMap v = Ok (mapOf l).
Proof.
  intros (items & E & F). unfold updateMap. rewrite E. assert (G : oall updateEntry items = Ok (map (fun kz => (snd kz, fst kz)) l)).
  { apply oall_Forall2. clear E. induction F as [|x y items l Hx F IH]; [constructor|]. constructor; [now apply updateEntry_ok|exact IH]. }
  rewrite G. reflexivity.
Qed.
Lemma updateMaps_ok v ls : readsUpdate v ls -> updateMaps v = Ok (map mapOf ls).
Proof.
  intros (items & E & F). unfold updateMaps. rewrite E. apply oall_Forall2. clear E. induction F as [|x y items l Hx F IH]; [constructor|]. constructor; [now apply updateMap_ok|exact IH].
Qed.
Lemma centred_twice cs : centred (centred cs) = centred cs.
Proof.
  destruct cs as [|c cs]; [reflexivity|]. unfold centred at 1. cbn [centred map]. f_equal; [coords|]. rewrite map_map. apply map_ext. intros x. coords.
Qed.
(** the total number of particles needed and the map of changes, per position *)
Lemma mkProcess_bucket_total S pt rows basis rate number first : wfPT pt -> rows <> [] -> (forall r s, In r rows -> In s (map fst (br_upd r)) -> exists k, tfind pt s = Some k) ->
  mkConfiguration (map br_c rows) (map br_before rows) pt = Some first -> exists p, mkProcess S first (setUpdateInfo first (map br_upd rows)) rate basis [] [] number = Some p /\ pr_rate p = rate /\ pr_basis p = basis.
Proof.
  intros WP NE HK E1. apply mkConfiguration_info in E1. destruct (names_wf _ _ WP (ci_names _ _ _ _ E1)) as [L1 _].
  assert (NR : 0 < zlen rows) by (destruct rows; [congruence|]; rewrite zlen_cons; pose proof (zlen_nonneg rows); lia).
  assert (LE : zlen (cf_elements first) = zlen rows) by (rewrite (ci_elements _ _ _ _ E1); apply zlen_map).
  assert (LC : zlen (cf_coords first) = zlen rows) by (rewrite (ci_coords _ _ _ _ E1); apply zlen_map).
  assert (LT1 : zlen (cf_types first) = zlen rows) by (rewrite (omap_zlen _ _ _ (ci_types _ _ _ _ E1)), zlen_map; reflexivity).
  unfold mkProcess, configurationsToMatchList.
  assert (EU : exists upd, updateTypes first (setUpdateInfo first (map br_upd rows)) = Some upd /\ zlen upd = zlen rows).
  { unfold updateTypes. cbn [setUpdateInfo cf_update cf_ptypes]. rewrite (ci_ptypes _ _ _ _ E1). destruct (omap_total (updateFromInfo pt) (map br_upd rows)) as [upd EU].
    - intros u Hu. apply in_map_iff in Hu. destruct Hu as (r & <- & Hr). unfold updateFromInfo.
      destruct (ofold_total (fun u => zlen u = zlen pt) (fun u kv => t <- tfind pt (fst kv) ;; zset u t (snd kv)) (br_upd r) (repeat 0 (length pt))) as (u & E & _); [|rewrite zlen_repeat; reflexivity|eauto].
      intros u [s k] Hin Lu. cbn [fst snd]. destruct (HK r s Hr) as [t Et]; [change s with (fst (s, k)); now apply in_map|]. rewrite Et. cbn [obind]. pose proof (tfind_range _ _ _ WP Et). destruct (zset_lt u t k) as [u' Eu]; [lia|]. exists u'. split; [exact Eu|]. rewrite (zset_len _ _ _ _ Eu). exact Lu.
    - exists upd. split; [|rewrite (omap_zlen _ _ _ EU), zlen_map; reflexivity]. destruct rows as [|r0 rows']; [congruence|]. exact EU. }
  destruct EU as (upd & EU & LU). rewrite EU. cbn [obind]. destruct (zget_lt (cf_coords first) 0) as [origin EO]; [lia|]. rewrite EO. cbn [obind]. rewrite LE.
  assert (EF : exists acc, ofold (mlStep S origin (cf_coords first) (cf_types first) upd) (zrange 0 (zlen rows - 1)) (mkML 1 0 [] []) = Some acc).
  { assert (G : forall idx acc, (forall i, In i idx -> 0 <= i < zlen rows) -> exists acc', ofold (mlStep S origin (cf_coords first) (cf_types first) upd) idx acc = Some acc').
    { induction idx as [|i idx IH]; intros acc Hi; [exists acc; reflexivity|]. cbn [ofold]. unfold mlStep at 1. pose proof (Hi i (or_introl eq_refl)). destruct (zget_lt (cf_coords first) i) as [c C]; [lia|]. destruct (zget_lt (cf_types first) i) as [t T]; [lia|]. destruct (zget_lt upd i) as [u U]; [lia|]. rewrite C, T, U. cbn [obind].
      apply IH. intros j Hj. apply Hi. now right. }
    apply G. intros i Hi. apply In_zrange in Hi. lia. }
  destruct EF as (acc & EF). rewrite EF. cbn [obind placeMoves]. unfold placeMoves. cbn [zlen]. eexists. split; [reflexivity|]. split; reflexivity.
Qed.

(** A bucket process whose arguments are well formed and name possible types only reaches the backend as given: positions, particles needed, changes, rate,
    and the basis sites that exist in the cell. *)
Theorem C65_backend S pt nbasis custom number coordinates minimum update basis rate b cs entries needs changes : wfPT pt ->
  KMCBucketProcess S coordinates minimum update basis rate = Ok b ->
  readsCoords coordinates cs -> asSeq minimum = Some entries -> Forall2 (fun v n => entryOf v = Some n) entries needs -> readsUpdate update changes -> zlen changes = zlen cs ->
  (forall n, In n needs -> exists s, 0 < STypes.countOf s n) ->
  (forall n s, In n needs -> In s (map snd n) -> exists k, tfind pt s = Some k) -> (forall n s, In n changes -> In s (map snd n) -> exists k, tfind pt s = Some k) ->
  exists rows proc bs r, readsBasis basis bs /\ readsRate rate r /\ backendProcess S pt nbasis custom number (KBucketP b) = Ok (Some proc) /\
    builtBucket S pt rows (filter (fun x => x <? nbasis) bs) proc /\ pr_rate proc = r /\ pr_basis proc = filter (fun x => x <? nbasis) bs /\ zlen rows = zlen cs /\
    forall i c n ch c0, zget cs 0 = Some c0 -> zget cs i = Some c -> zget needs i = Some n -> zget changes i = Some ch -> exists row, zget rows i = Some row /\ saysRow c0 c n ch row.
Proof.
  intros WP H RC ES F2 RU LU HP HN HC. unfold KMCBucketProcess in H.
  destruct (checkCoordinateList coordinates) as [cs'|] eqn:E1; cbn [MPy.obind] in H; [|discriminate]. pose proof (checkCoordinateList_ne _ _ E1) as NE. pose proof (proj2 (readsCoords_ok coordinates cs' NE) E1) as RC'.
  assert (cs' = cs). { destruct RC as (l1 & A1 & B1), RC' as (l2 & A2 & B2). rewrite A1 in A2. injection A2 as <-. clear - B1 B2. revert cs B1. induction B2 as [|x c l cs' Hx B2 IH]; intros cs B1; inversion B1; subst; [reflexivity|]. f_equal; [|now apply IH]. unfold readsVector in *. rewrite Hx in H1. injection H1 as X Y Z. now apply coord_eq. }
  subst cs'. clear RC'. destruct (checkBasis basis) as [bs|] eqn:E2; cbn [MPy.obind] in H; [|discriminate]. destruct (checkRate rate) as [r|] eqn:E3; cbn [MPy.obind] in H; [|discriminate].
  rewrite ES in H. destruct (oall (normaliseEntry S) entries) as [ms|] eqn:E4; cbn [MPy.obind] in H; [|discriminate]. destruct (Z.eqb_spec (zlen ms) (zlen (centred cs))) as [LM|]; cbn [negb] in H; [|discriminate]. rewrite centred_zlen in LM.
  destruct (oall _ (concat ms)) as [ns|]; cbn [MPy.obind] in H; [|discriminate].
  assert (MS : Forall2 (fun m n => normaliseEntry S (VList (map VTuple m)) = Ok m /\ omap itemT m = Some (totals n)) ms needs).
  { apply oall_Forall2 in E4. clear - E4 F2. revert needs F2. induction E4 as [|v m entries ms Hv E4 IH]; intros needs F2; inversion F2; subst; constructor; [|now apply IH]. destruct (C40_normalises S v y H1) as (m' & R1 & R2 & _ & _). rewrite Hv in R1. injection R1 as <-.
    split; [exact (C40_idempotent S v y m H1 Hv)|]. cbn [entryOf] in R2. rewrite omap_itemOf in R2. exact R2. }
  assert (E5 : oall (fun m => normaliseEntry S (VList (map VTuple m))) ms = Ok ms) by (apply oall_Forall2; clear - MS; induction MS as [|m n ms needs [Hm _] MS IH]; constructor; auto).
  rewrite E5 in H. cbn [MPy.obind] in H. injection H as <-. cbn [kb_coords kb_match kb_update kb_basis kb_rate backendProcess backendElements kc_types].
  assert (EE : oall (fun b => try r <- oall repeatName b ;; Ok (concat r)) ms = Ok (map (fun n => spread (totals n)) needs)).
  { apply oall_Forall2. clear - MS. induction MS as [|m n ms needs [_ Hm] MS IH]; [constructor|]. constructor; [|exact IH]. destruct (repeatName_ok _ _ Hm) as (rr & R1 & R2). rewrite R1. cbn [MPy.obind]. now rewrite R2. }
  rewrite EE. cbn [MPy.obind]. rewrite (updateMaps_ok _ _ RU). cbn [MPy.obind]. rewrite centred_twice.
  assert (LN : zlen needs = zlen cs) by (rewrite <- LM; symmetry; exact (Forall2_zlen _ _ _ MS)).
  set (rows := map (fun x => mkBRow (fst (fst x)) (spread (totals (snd (fst x)))) (mapOf (snd x))) (combine (combine (centred cs) needs) changes)).
  assert (GR : forall i, zget rows i = match zget cs i, zget needs i, zget changes i with Some c, Some n, Some ch => Some (mkBRow (csub c (hd czero cs)) (spread (totals n)) (mapOf ch)) | _, _, _ => None end).
  { intros i. unfold rows. rewrite zget_map, !zget_combine, centred_zget. destruct (zget cs i), (zget needs i), (zget changes i); reflexivity. }
  assert (LR : zlen rows = zlen cs).
  { unfold rows. rewrite zlen_map. unfold zlen. rewrite !combine_length. pose proof (centred_zlen cs). unfold zlen in *. lia. }
  assert (COL : forall i, (exists c n ch, zget cs i = Some c /\ zget needs i = Some n /\ zget changes i = Some ch) \/ (zget cs i = None /\ zget needs i = None /\ zget changes i = None)).
  { intros i. destruct (zget cs i) as [c|] eqn:E.
    - left. pose proof (zget_range _ _ _ E). destruct (zget_lt needs i) as [n En]; [lia|]. destruct (zget_lt changes i) as [ch Ec]; [lia|]. exists c, n, ch. auto.
    - right. apply zget_None in E. split; [reflexivity|]. split; apply zget_None; lia. }
  assert (C1 : map br_c rows = centred cs) by (apply PBase.zget_ext; intros i; rewrite zget_map, GR, centred_zget; destruct (COL i) as [(c & n & ch & X1 & X2 & X3)|(X1 & X2 & X3)]; rewrite ?X1, ?X2, ?X3; reflexivity).
  assert (C2 : map br_before rows = map (fun n => spread (totals n)) needs) by (apply PBase.zget_ext; intros i; rewrite !zget_map, GR; destruct (COL i) as [(c & n & ch & X1 & X2 & X3)|(X1 & X2 & X3)]; rewrite ?X1, ?X2, ?X3; reflexivity).
  assert (C3 : map br_upd rows = map mapOf changes) by (apply PBase.zget_ext; intros i; rewrite !zget_map, GR; destruct (COL i) as [(c & n & ch & X1 & X2 & X3)|(X1 & X2 & X3)]; rewrite ?X1, ?X2, ?X3; reflexivity).
  assert (NR : rows <> []) by (intros X; rewrite X, zlen_nil in LR; symmetry in LR; apply zlen_0 in LR; congruence).
  destruct (mkConfiguration_total pt (centred cs) (map (fun n => spread (totals n)) needs) WP) as [first EF]; [rewrite centred_zlen, zlen_map; lia| |].
  { intros e He. apply in_map_iff in He. destruct He as (n & <- & Hn). assert (HM : forall s, SBucket.howMany s (spread (totals n)) = Z.max 0 (STypes.countOf s n)) by (intros s; rewrite howMany_spread by (rewrite totals_names; apply firsts_NoDup); now rewrite countOf_totals). split.
    - intros X. destruct (HP n Hn) as [s Hs]. specialize (HM s). rewrite X in HM. cbn in HM. lia.
    - intros s Hs. apply (HN n s Hn). unfold spread in Hs. apply in_flat_map in Hs. destruct Hs as (ks & Hin & Hr). apply repeat_spec in Hr. subst s. apply firsts_In. rewrite <- totals_names. now apply in_map. }
  rewrite EF. cbn [obind]. pose proof EF as EF'. rewrite <- C1, <- C2 in EF'.
  assert (HKU : forall r s, In r rows -> In s (map fst (br_upd r)) -> exists k, tfind pt s = Some k).
  { intros r0 s Hr Hs. assert (Hin : In (br_upd r0) (map mapOf changes)) by (rewrite <- C3; now apply in_map). apply in_map_iff in Hin. destruct Hin as (ch & Ech & Hch). apply (HC ch s Hch). apply (proj1 (proj2 (mapOf_spec ch))). rewrite Ech. exact Hs. }
  destruct (mkProcess_bucket_total S pt rows (filter (fun x => x <? nbasis) bs) r number first WP NR HKU EF') as (p & EP & PR & PB). rewrite C3 in EP.
  assert (ROW : forall i c n ch c0, zget cs 0 = Some c0 -> zget cs i = Some c -> zget needs i = Some n -> zget changes i = Some ch -> exists row, zget rows i = Some row /\ saysRow c0 c n ch row).
  { intros i c n ch c0 X0 X1 X2 X3. rewrite GR, X1, X2, X3. eexists. split; [reflexivity|]. destruct (mapOf_spec ch) as (M1 & M2 & M3). constructor; cbn [br_c br_before br_upd].
    - destruct cs as [|z cs0]; [rewrite zget_nil in X0; discriminate|]. rewrite zget_0 in X0. injection X0 as ->. reflexivity.
    - intros s. rewrite howMany_spread by (rewrite totals_names; apply firsts_NoDup). now rewrite countOf_totals.
    - exact M3.
    - exact M1.
    - intros s Hs. apply M2. exact Hs. }
  destruct custom as [[cut cache]|].
  - unfold mkCustomProcess at 1. rewrite EP. cbn [obind]. eexists rows, _, bs, r. split; [now apply readsBasis_ok|]. split; [now apply readsRate_ok|]. split; [reflexivity|]. split.
    { exists first, r, number. rewrite C3. split; [exact EF'|]. right. exists cut, cache. unfold mkCustomProcess. rewrite EP. reflexivity. }
    split; [reflexivity|]. split; [reflexivity|]. split; [exact LR|exact ROW].
  - rewrite EP. exists rows, p, bs, r. split; [now apply readsBasis_ok|]. split; [now apply readsRate_ok|]. split; [reflexivity|]. split; [|auto].
    exists first, r, number. rewrite C3. split; [exact EF'|]. now left.
Qed.
(** two A react to a B, on a cell with one basis site; the second basis site given does not exist *)
Example C65_example : let minimum := VList [VList [VStr "A"; VTuple [VInt 1; VStr "A"]]] in let update := VList [VList [VTuple [VInt (-1); VStr "A"]; VTuple [VInt (-2); VStr "A"]; VTuple [VInt 1; VStr "B"]]] in
  exists b, KMCBucketProcess 10 (pyCoords [mkC 3 0 0]) minimum update (pyBasis [0; 7]) (VFloat (FNum 5)) = Ok b /\ readsCoords (pyCoords [mkC 3 0 0]) [mkC 3 0 0] /\ wfPT ptAB /\
    Forall2 (fun v n => entryOf v = Some n) [VList [VStr "A"; VTuple [VInt 1; VStr "A"]]] [[(1, "A"); (1, "A")]] /\ readsUpdate update [[(-1, "A"); (-2, "A"); (1, "B")]] /\
    STypes.countOf "A" [(1, "A"); (1, "A")] = 2 /\ lastChange [(-1, "A"); (-2, "A"); (1, "B")] "A" = -2.
Proof.
  eexists. split; [vm_compute; reflexivity|]. split; [exists [pyv (mkC 3 0 0)]; split; [reflexivity|repeat constructor]|]. split.
  { split; [|split; [cbn; apply Permutation_refl|reflexivity]]. cbn. repeat constructor; cbn; intuition discriminate. }
  split; [repeat constructor|]. split; [|split; reflexivity]. eexists. split; [reflexivity|]. repeat constructor. eexists. split; [reflexivity|]. repeat constructor; eexists; eexists; split; reflexivity.
Qed.

Print Assumptions C44_arguments.
Print Assumptions C44_basis_rate.
Print Assumptions C44_backend_data.
Print Assumptions C65_backend.
