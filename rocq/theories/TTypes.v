(** Theorems on the types input: C40, C41, C42, C43, C62. *)
From Verif Require Import PTypes PLattice TLattice.
Open Scope string_scope.
Open Scope list_scope.
Open Scope Z_scope.

(** ** C40 *)
(** [u] is the integer that stands for the float 1.0; no result depends on it. *)
(** A valid entry is accepted; the result, read as an entry again, is one pair per type in order of first appearance with the total number of particles of that type. *)
Theorem C40_normalises u t given : entryOf t = Some given ->
  exists r, normaliseEntry u t = Ok r /\ entryOf (VList (map VTuple r)) = Some (totals given) /\ NoDup (map snd (totals given)) /\ (forall s, countOf s (totals given) = countOf s given).
Proof.
  intros H.
  assert (D : NoDup (map snd (totals given))) by (unfold totals; rewrite map_map; cbn [snd]; rewrite map_id; apply firsts_NoDup).
  assert (C : forall s, countOf s (totals given) = countOf s given).
  { intros s. destruct (in_dec string_dec s (map snd given)) as [Hin|Hn].
    - apply firsts_In in Hin. pose proof (firsts_NoDup (map snd given)) as ND. unfold totals. revert Hin ND. generalize (firsts (map snd given)) as l. induction l as [|a l IH]; intros Hin ND; [destruct Hin|].
      cbn [map]. rewrite countOf_cons. inversion ND as [|? ? Ha ND']; subst. destruct (String.eqb_spec a s) as [->|Hne].
      + rewrite (countOf_none s (map _ l)); [lia|]. rewrite map_map. cbn [snd]. rewrite map_id. exact Ha.
      + rewrite IH; [lia| |exact ND']. destruct Hin as [->|Hin]; [congruence|exact Hin].
    - rewrite (countOf_none s given) by exact Hn. apply countOf_none. unfold totals. rewrite map_map. cbn [snd]. rewrite map_id, firsts_In. exact Hn. }
  destruct t as [| | | |s|l|l|]; try discriminate; cbn [entryOf] in H.
  - injection H as <-. eexists. split; [reflexivity|]. split; [rewrite totals_one; reflexivity|]. auto.
  - destruct (oall_listElement l given H) as (ts & T1 & T2). destruct (mergeEntries_ok u ts given [] 0 [] T2 ltac:(reflexivity)) as (r & R1 & R2). exists r. cbn [normaliseEntry]. rewrite T1. cbn [MPy.obind]. split; [exact R1|].
    split; [|auto]. cbn [entryOf]. rewrite omap_itemOf, R2, fresh_nil. reflexivity.
  - cbn [itemOf] in H. fold (itemOf (VTuple l)) in H. fold (itemT l) in H. destruct (itemT l) as [[k s]|] eqn:E; [|discriminate]. injection H as <-. pose proof E as E'. apply itemT_inv in E as (n & -> & En). exists [[n; VStr s]].
    cbn [normaliseEntry]. unfold instInt. rewrite En. cbn [instStr andb]. split; [reflexivity|]. split; [|auto]. cbn [entryOf map]. change [VTuple [n; VStr s]] with (map VTuple [[n; VStr s]]). rewrite omap_itemOf. cbn [omap]. rewrite E', totals_one. reflexivity.
Qed.
Theorem C40_idempotent u t given r : entryOf t = Some given -> normaliseEntry u t = Ok r -> normaliseEntry u (VList (map VTuple r)) = Ok r.
Proof.
  intros H HR. destruct (C40_normalises u t given H) as (r' & R1 & R2 & R3 & _). rewrite HR in R1. injection R1 as <-. cbn [entryOf] in R2. rewrite omap_itemOf in R2. cbn [normaliseEntry]. rewrite (oall_tuples r _ R2). cbn [MPy.obind].
  eapply mergeEntries_nodup; [exact R2|exact R3|reflexivity].
Qed.
(** Rejection, except for lists with malformed tuples: what is neither string, pair nor list, or a list with something that is neither string nor tuple.
    Missing: a list in which a tuple is not of the form (int, str); C40_malformed_refuted shows that these are not all rejected. *)
Theorem C40_rejects_partial u t : entryOf t = None ->
  (forall l w, t = VList l -> In (VTuple w) l -> itemOf (VTuple w) <> None) -> normaliseEntry u t = Raise KmcError.
Proof.
  intros H HW. destruct t as [| | | |s|l|l|]; try reflexivity; cbn [entryOf] in H; [discriminate| |].
  - cbn [normaliseEntry]. assert (E : oall listElement l = Raise KmcError).
    { specialize (HW l). revert H HW. induction l as [|v l IH]; intros H HW; [discriminate|]. cbn [omap] in H. cbn [oall]. destruct (itemOf v) as [x|] eqn:Ev.
      - destruct (listElement_ok v x Ev) as (t & T1 & _). rewrite T1. cbn [MPy.obind]. cbn [obind] in H. rewrite IH; [reflexivity| |].
        + destruct (omap itemOf l); [discriminate|reflexivity].
        + intros w _ Hin. eapply HW; [reflexivity|right; exact Hin].
      - destruct v; try reflexivity; [discriminate|]. exfalso. eapply HW; [reflexivity|left; reflexivity|exact Ev]. }
    rewrite E. reflexivity.
  - cbn [itemOf] in H. fold (itemOf (VTuple l)) in H. destruct l as [|a [|b [|]]]; try reflexivity. cbn [normaliseEntry]. destruct (instInt a) eqn:Ea; [|reflexivity]. destruct b; try reflexivity. cbn [instStr andb].
    cbn [itemOf] in H. unfold instInt in Ea. destruct (asInt a); discriminate.
Qed.
(** A list entry with a tuple the wrong way round is accepted; an empty tuple in a list ends with an IndexError. *)
Theorem C40_malformed_refuted u : (exists t r, entryOf t = None /\ normaliseEntry u t = Ok r) /\ (exists t, entryOf t = None /\ normaliseEntry u t = Raise IndexError).
Proof.
  split; [exists (VList [VTuple [VStr "A"; VInt 1]]), [[VStr "A"; VInt 1]]; split; reflexivity|]. exists (VList [VTuple []]). split; reflexivity.
Qed.
Example C40_example u : entryOf (VList [VStr "A"; VTuple [VInt 2; VStr "B"]; VTuple [VInt 3; VStr "A"]; VTuple [VBool true; VStr "C"]]) = Some [(1, "A"); (2, "B"); (3, "A"); (1, "C")] /\
  normaliseEntry u (VList [VStr "A"; VTuple [VInt 2; VStr "B"]; VTuple [VInt 3; VStr "A"]; VTuple [VBool true; VStr "C"]]) = Ok [[VInt 4; VStr "A"]; [VInt 2; VStr "B"]; [VBool true; VStr "C"]] /\
  entryOf (VTuple [VStr "A"; VInt 2]) = None /\ entryOf (VList [VStr "A"; VInt 2]) = None.
Proof. repeat split; reflexivity. Qed.

(** ** C41 *)
(** Accepted iff the possible types fit (they are compared with the types present); every site has the type of the last entry that names it, or the default type. *)
Theorem C41_long u L l d possible es : wf_lattice L -> l <> [] -> omap longOf l = Some es -> (forall i j k m s, In (i, j, k, m, s) es -> isSite L i j k m) ->
  exists ts, zlen ts = nsites L /\ (forall i j k m, isSite L i j k m -> zget ts (globalIndex L i j k m) = Some (lastNamed es i j k m d)) /\
    (possibleFits possible ts -> exists c, KMCConfiguration u L (VList l) (VStr d) possible = Ok c /\ kc_types c = KPlain ts) /\
    (~ possibleFits possible ts -> KMCConfiguration u L (VList l) (VStr d) possible = Raise KmcError).
Proof.
  intros WF Hne HL HS. pose proof (detect_long l es Hne HL) as D.
  assert (HN : 0 <= nsites L) by (unfold nsites; destruct WF; nia).
  destruct (setLong_fold L WF l es (repeat d (Z.to_nat (nsites L))) HL HS) as (ts & T1 & T2 & T3); [unfold zlen; rewrite repeat_length; lia|].
  exists ts. split; [exact T2|]. split; [intros i j k m Hs; apply T3; [exact Hs|]; apply zget_repeat; pose proof (globalIndex_range L WF _ _ _ _ Hs); lia|].
  cbn [KMCConfiguration]. rewrite D. cbn [MPy.obind longTypes]. rewrite T1. cbn [MPy.obind]. split; intros HF.
  - apply possibleTypes_ok in HF. rewrite HF. cbn [MPy.obind]. eexists. split; reflexivity.
  - rewrite possibleTypes_fail by exact HF. reflexivity.
Qed.
(** An entry that is not of the form (int,int,int,int,str), or names no site of the lattice, is an Error; except that a first entry with more than five elements is not covered. *)
Theorem C41_rejects u L l d possible v : wf_lattice L -> In v l -> (forall i j k m s, longOf v = Some (i, j, k, m, s) -> ~ isSite L i j k m) -> (forall t, In (VTuple t) l -> zlen t <= 5) ->
  KMCConfiguration u L (VList l) (VStr d) possible = Raise KmcError.
Proof.
  intros WF Hin Hb H5. assert (HN : 0 <= nsites L) by (unfold nsites; destruct WF; nia). cbn [KMCConfiguration]. unfold detectTypesFormat. destruct (forallb instStr l); [reflexivity|]. destruct (forallb instTuple l) eqn:ET; [|reflexivity].
  destruct l as [|w l]; [reflexivity|]. destruct w; try reflexivity. unfold longShape. assert (H5' := H5 l0 (or_introl eq_refl)). destruct (Z.ltb_spec 5 (zlen l0)); [lia|]. cbn [MPy.obind]. match goal with |- context [if ?b then Long else Buckets] => destruct b; [|reflexivity] end.
  cbn [longTypes]. erewrite setLong_fold_bad; [reflexivity|exact Hin|exact Hb|exact WF|]. unfold zlen. rewrite repeat_length. lia.
Qed.
(** ... where an IndexError comes instead of an Error. *)
Theorem C41_six_elements_refuted : exists u L l d possible v, wf_lattice L /\ In v l /\ longOf v = None /\ KMCConfiguration u L (VList l) (VStr d) possible = Raise IndexError.
Proof.
  exists 1, (mkLat 1 1 1 1 true true true 10), [VTuple [VInt 0; VInt 0; VInt 0; VInt 0; VStr "A"; VInt 1]], "B", VNone. eexists. split; [constructor; cbn; lia|]. split; [left; reflexivity|]. split; reflexivity.
Qed.
(** The short format list of these types gives the same configuration. *)
Theorem C41_short u L l d possible c ts : KMCConfiguration u L (VList l) (VStr d) possible = Ok c -> kc_types c = KPlain ts -> zlen ts = nsites L -> KMCConfiguration u L (VList (map VStr ts)) VNone possible = Ok c.
Proof.
  intros H HT HL. cbn [KMCConfiguration] in *. unfold detectTypesFormat at 1. rewrite strs_all. cbn [MPy.obind]. unfold checkTypes. rewrite oall_strs. cbn [MPy.obind]. rewrite zlen_map, HL, Z.eqb_refl. cbn [MPy.obind].
  destruct (detectTypesFormat l) as [[]|e]; cbn [MPy.obind] in H; try discriminate. destruct (longTypes L l (VStr d)) as [ts'|e]; cbn [MPy.obind] in H; [|discriminate]. destruct (possibleTypes possible (sortedSet ts')) as [pt|e] eqn:EP; cbn [MPy.obind] in H; [|discriminate].
  injection H as <-. cbn [kc_types] in HT. injection HT as ->. rewrite EP. reflexivity.
Qed.
(** a 2 x 1 x 2 lattice with two basis points: an entry overwritten by a later one, given and default possible types *)
Definition tyL : lattice := mkLat 2 2 1 2 true true false 10.
Definition tyLong : list pyval := [VTuple [VInt 1; VInt 0; VInt 1; VInt 1; VStr "A"]; VTuple [VInt 0; VInt 0; VInt 1; VInt 0; VStr "B"]; VTuple [VInt 1; VInt 0; VBool true; VInt 1; VStr "C"]].
Example C41_example : wf_lattice tyL /\ (exists es, omap longOf tyLong = Some es /\ (forall i j k m s, In (i, j, k, m, s) es -> isSite tyL i j k m) /\ lastNamed es 1 0 1 1 "V" = "C" /\ lastNamed es 0 0 0 0 "V" = "V") /\
  KMCConfiguration 1 tyL (VList tyLong) (VStr "V") VNone = Ok (mkKC (KPlain ["V"; "V"; "B"; "V"; "V"; "V"; "V"; "C"]) [("*", 0); ("B", 1); ("C", 2); ("V", 3)]).
Proof.
  split; [constructor; cbn; lia|]. split; [|vm_compute; reflexivity]. eexists. split; [reflexivity|]. split; [|split; reflexivity]. cbn [In]. intros i j k m s [H|[H|[H|[]]]]; injection H as <- <- <- <- <-; unfold isSite; cbn; lia.
Qed.

(** ** C42 *)
(** Short and long format: one type per site.  Missing: the bucket format, see C42_buckets_refuted. *)
Theorem C42_one_per_site_partial u L types default possible c ts : wf_lattice L -> KMCConfiguration u L types default possible = Ok c -> kc_types c = KPlain ts -> zlen ts = nsites L.
Proof.
  intros WF H HT. assert (HN : 0 <= nsites L) by (unfold nsites; destruct WF; nia). destruct types as [| | | | |l| |]; try discriminate. cbn [KMCConfiguration] in H. destruct (detectTypesFormat l) as [[]|e]; cbn [MPy.obind] in H; try discriminate.
  - destruct default; try discriminate. unfold checkTypes in H. destruct (oall _ l) as [ts'|e] eqn:EO; cbn [MPy.obind] in H; [|discriminate]. destruct (Z.eqb_spec (zlen l) (nsites L)) as [EL|]; cbn [MPy.obind] in H; [|discriminate].
    destruct (possibleTypes possible (sortedSet ts')) as [pt|e]; cbn [MPy.obind] in H; [|discriminate]. injection H as <-. cbn in HT. injection HT as <-. apply oall_strs_inv in EO. subst l. rewrite zlen_map in EL. exact EL.
  - unfold longTypes in H. destruct default; try discriminate. destruct (ofoldl (setLong L) l _) as [ts'|e] eqn:EO; cbn [MPy.obind] in H; [|discriminate]. destruct (possibleTypes possible (sortedSet ts')) as [pt|e]; cbn [MPy.obind] in H; [|discriminate]. injection H as <-. cbn in HT. injection HT as <-.
    assert (G : forall vs acc r, zlen acc = nsites L -> ofoldl (setLong L) vs acc = Ok r -> zlen r = nsites L).
    { induction vs as [|v vs IH]; intros acc r HL E; cbn [ofoldl] in E; [injection E as <-; exact HL|]. destruct (setLong L acc v) as [acc'|e] eqn:ES; cbn [MPy.obind] in E; [|discriminate]. eapply IH; [|exact E]. clear E. unfold setLong in ES.
      repeat match type of ES with (match ?x with _ => _ end) = _ => destruct x eqn:?; try discriminate end. injection ES as <-. match goal with E : zset _ _ _ = Some _ |- _ => rewrite (zset_len _ _ _ _ E); exact HL end. }
    eapply G; [|exact EO]. unfold zlen. rewrite repeat_length. lia.
  - destruct default; try discriminate. destruct (oall (normaliseEntry u) l) as [ts'|e]; cbn [MPy.obind] in H; [|discriminate]. destruct (bucketNames ts') as [ns|e]; cbn [MPy.obind] in H; [|discriminate]. destruct (possibleTypes possible (sortedSet ns)) as [pt|e]; cbn [MPy.obind] in H; [|discriminate]. injection H as <-. discriminate.
Qed.
(** In the bucket format the number of sites is not checked: a shorter list is accepted (the C++ constructor then reads past its end), and so is a longer one. *)
Theorem C42_buckets_refuted : exists u L, wf_lattice L /\
  (exists types c, KMCConfiguration u L (VList types) VNone VNone = Ok c /\ zlen types < nsites L /\ forall sites, zlen sites = nsites L -> backendConfiguration c sites = Ok None) /\
  (exists types c sites cf, KMCConfiguration u L (VList types) VNone VNone = Ok c /\ nsites L < zlen types /\ zlen sites = nsites L /\ backendConfiguration c sites = Ok (Some cf)).
Proof.
  exists 1, (mkLat 1 2 1 1 true true true 10). split; [constructor; cbn; lia|]. split.
  - exists [VList [VStr "A"]], (mkKC (KBuckets [[[VInt 1; VStr "A"]]]) [("*", 0); ("A", 1)]). split; [vm_compute; reflexivity|]. split; [cbn; lia|]. intros sites HS. destruct sites as [|a [|b [|]]]; unfold zlen in HS; cbn in HS; try lia. reflexivity.
  - exists [VList [VStr "A"]; VList [VStr "A"]; VList [VStr "A"]]. eexists. exists [czero; mkC 10 0 0]. eexists. split; [vm_compute; reflexivity|]. split; [cbn; lia|]. split; [reflexivity|]. vm_compute. reflexivity.
Qed.
Example C42_example : exists c, KMCConfiguration 1 tyL (VList (map VStr ["A"; "B"; "A"; "A"; "A"; "A"; "A"; "A"])) VNone VNone = Ok c /\ KMCConfiguration 1 tyL (VList (map VStr ["A"; "B"])) VNone VNone = Raise KmcError.
Proof. eexists. split; vm_compute; reflexivity. Qed.

(** ** C43 *)
(** If possible_types is not given or names no type twice: the numbers are 0, 1, ..., the wildcard is number 0, the possible types are numbered from 1 in the order given (in alphabetical order if not given),
    every type present has a number, and the backend has these types and no others.  Missing: lists with repeated names, see C43_duplicates_refuted. *)
Theorem C43_numbers_partial u L types default possible c : KMCConfiguration u L types default possible = Ok c -> (forall names, possible = VList (map VStr names) -> NoDup names) ->
  exists names, wfPT (kc_possible c) /\ zlen (kc_possible c) = zlen names + 1 /\ (forall k s, zget ("*" :: names) k = Some s -> tfind (kc_possible c) s = Some k) /\
    (forall names', possible = VList (map VStr names') -> names = names') /\ (forall s, presentIn c s -> In s names /\ exists k, 1 <= k <= zlen names /\ tfind (kc_possible c) s = Some k) /\
    (forall sites cf, backendConfiguration c sites = Ok (Some cf) -> cf_names cf = "*" :: names).
Proof.
  intros H HD. destruct (KMCConfiguration_possible _ _ _ _ _ _ H) as (present & HF & HP & HI). exists (possibleNames possible present).
  assert (F : NoDup ("*" :: possibleNames possible present) /\ incl present (possibleNames possible present)).
  { destruct HF as [[-> Hn]|(names & -> & Hn & Hi)]; cbn [possibleNames].
    - split; [constructor; [rewrite sortedSet_In; exact Hn|apply sortedSet_NoDup]|]. intros x Hx. apply sortedSet_In. exact Hx.
    - rewrite flat_strs. split; [constructor; [exact Hn|apply HD; reflexivity]|exact Hi]. }
  destruct F as [ND HS]. destruct (dictZip_wf _ ND) as (W1 & W2 & W3). rewrite HP. split; [exact W1|]. split; [exact W2|]. split; [exact W3|]. split; [|split].
  - intros names' ->. cbn [possibleNames]. rewrite flat_strs. reflexivity.
  - intros s Hs. apply HI, HS in Hs. split; [exact Hs|]. apply In_zget in Hs. destruct Hs as [j Ej]. pose proof (zget_range _ _ _ Ej). exists (j + 1). split; [lia|]. apply W3. rewrite zget_cons. destruct (Z.eqb_spec (j + 1) 0); [lia|]. replace (j + 1 - 1) with j by lia. exact Ej.
  - intros sites cf HB. unfold backendConfiguration in HB. destruct (backendElements c) as [els|e]; cbn [MPy.obind] in HB; [|discriminate]. injection HB as HB. apply mkConfiguration_info in HB. rewrite HP in HB. pose proof (ci_names _ _ _ _ HB) as HN.
    destruct (names_wf _ _ W1 HN) as [N1 N2]. apply zget_ext; [rewrite N1, W2, zlen_cons; lia|]. intros i. destruct (zget ("*" :: possibleNames possible present) i) as [s|] eqn:E.
    + apply N2, W3. exact E.
    + apply zget_None in E. apply zget_None. rewrite N1, W2. rewrite zlen_cons in E. lia.
Qed.
(** A repeated name is accepted.  Its number is then that of its last occurrence, a number without a name remains, and the particle counts that are reported leave out the last types. *)
Theorem C43_duplicates_refuted : exists u L types possible c sites cf k counts, wf_lattice L /\ KMCConfiguration u L (VList (map VStr types)) VNone possible = Ok c /\ backendConfiguration c sites = Ok (Some cf) /\
  In "A" types /\ tfind (kc_possible c) "A" = Some k /\ ~ (exists s, tfind (kc_possible c) s = Some 1) /\ particlesPerType cf = Some counts /\ zget counts k = None.
Proof.
  exists 1, (mkLat 1 2 1 1 true true true 10), ["A"; "B"], (VList (map VStr ["A"; "B"; "A"])). eexists. exists [czero; mkC 10 0 0]. eexists. exists 3. eexists. split; [constructor; cbn; lia|]. split; [vm_compute; reflexivity|]. split; [vm_compute; reflexivity|]. split; [left; reflexivity|]. split; [reflexivity|].
  split; [|split; [vm_compute; reflexivity|reflexivity]]. intros (s & Hs). cbn [kc_possible tfind] in Hs. repeat match type of Hs with (if ?b then _ else _) = _ => destruct b; try discriminate end.
Qed.
Example C43_example : exists c, KMCConfiguration 1 tyL (VList tyLong) (VStr "V") (VList (map VStr ["V"; "C"; "A"; "B"])) = Ok c /\ kc_possible c = [("*", 0); ("V", 1); ("C", 2); ("A", 3); ("B", 4)].
Proof. eexists. split; vm_compute; reflexivity. Qed.

(** ** C62 *)
Lemma normalise_pairs u ls : NoDup (map snd ls) -> normaliseEntry u (VList (map (fun ks => VTuple [VInt (fst ks); VStr (snd ks)]) ls)) = Ok (map (fun ks => [VInt (fst ks); VStr (snd ks)]) ls) /\
  omap itemT (map (fun ks => [VInt (fst ks); VStr (snd ks)]) ls) = Some ls.
Proof.
  intros ND. assert (E : omap itemT (map (fun ks => [VInt (fst ks); VStr (snd ks)]) ls) = Some ls). { clear ND. induction ls as [|[k s] ls IH]; [reflexivity|]. cbn [map omap fst snd]. rewrite itemT_sum, IH. reflexivity. }
  split; [|exact E]. rewrite <- (map_map (fun ks => [VInt (fst ks); VStr (snd ks)]) VTuple). cbn [normaliseEntry]. rewrite (oall_tuples _ _ E). cbn [MPy.obind]. eapply mergeEntries_nodup; [exact E|exact ND|reflexivity].
Qed.
(** The numbers per type reported for a site (without the wildcard), given as input again, are the occupation they were made from. *)
Theorem C62_reported u pt names b : wfPT pt -> typeNamesOf pt = Some names -> zlen b = zlen names -> zget b 0 = Some 0 -> (forall k n, zget b k = Some n -> 0 <= n) ->
  exists l r els, bucketToPython names b = Some l /\ normaliseEntry u (VList (map (fun ks => VTuple [VInt (fst ks); VStr (snd ks)]) l)) = Ok r /\
    backendElements (mkKC (KBuckets [r]) pt) = Ok [els] /\ bucketOf pt (zlen names) els = Some b.
Proof.
  intros WP HN HL H0 HP. destruct (names_wf _ _ WP HN) as [N1 N2].
  assert (G : forall js, (forall j, In j js -> 0 <= j < zlen b) -> exists r, omap (fun j => t <- zget names j ;; n <- zget b j ;; Some (n, t)) js = Some r /\
     (forall n s, In (n, s) r <-> exists j, In j js /\ zget names j = Some s /\ zget b j = Some n) /\ (NoDup js -> NoDup (map snd r))).
  { induction js as [|j js IH]; intros HJ; [exists []; split; [reflexivity|]; split; [intros; split; [intros []|intros (j & [] & _)]|constructor]|]. destruct IH as (r & R1 & R2 & R3); [intros; apply HJ; right; assumption|]. assert (HJ0 := HJ j (or_introl eq_refl)).
    destruct (zget_lt names j) as [s Es]; [lia|]. destruct (zget_lt b j) as [n En]; [lia|]. exists ((n, s) :: r). cbn [omap]. rewrite Es, En. cbn [obind]. rewrite R1. split; [reflexivity|]. split.
    - intros n' s'. cbn [In]. rewrite R2. split.
      + intros [Hx|(j' & J1 & J2)]; [injection Hx as <- <-; exists j; auto|exists j'; auto].
      + intros (j' & [<-|J1] & J2 & J3); [left; congruence|right; eauto].
    - intros ND. inversion ND as [|? ? Hn ND']; subst. cbn [map snd]. constructor; [|apply R3; exact ND']. intros Hc. apply in_map_iff in Hc. destruct Hc as ([n' s'] & Hs' & Hin). cbn in Hs'. subst s'. apply R2 in Hin. destruct Hin as (j' & J1 & J2 & _).
      destruct (wfPT_name pt j WP ltac:(lia)) as [a Ea]. destruct (wfPT_name pt j' WP) as [a' Ea']; [apply zget_range in J2; lia|]. pose proof (N2 _ _ Ea). pose proof (N2 _ _ Ea'). assert (a = a') by congruence. subst a'. assert (j = j') by congruence. subst j'. contradiction. }
  destruct (G (zrange 1 (zlen b - 1))) as (r0 & R1 & R2 & R3); [intros j Hj; apply In_zrange in Hj; lia|]. specialize (R3 (NoDup_zrange _ _)).
  set (l := filter (fun nt => 0 <? fst nt) r0). assert (EL : bucketToPython names b = Some l) by (unfold bucketToPython; rewrite R1; reflexivity).
  assert (ND : NoDup (map snd l)). { unfold l. clear - R3. induction r0 as [|[n s] r IH]; [constructor|]. cbn [map snd filter fst] in *. inversion R3 as [|? ? Hn ND']; subst. destruct (0 <? n); [|auto]. cbn [map snd]. constructor; [|auto]. intros Hc. apply Hn. apply in_map_iff in Hc. destruct Hc as (x & <- & Hin). apply filter_In in Hin. apply in_map. apply Hin. }
  assert (LI : forall n s, In (n, s) l <-> 0 < n /\ exists j, 1 <= j /\ zget names j = Some s /\ zget b j = Some n).
  { intros n s. unfold l. rewrite filter_In, R2. cbn [fst]. rewrite Z.ltb_lt. split.
    - intros ((j & J1 & J2 & J3) & Hp). split; [exact Hp|]. exists j. apply In_zrange in J1. split; [lia|auto].
    - intros (Hp & j & J1 & J2 & J3). split; [|exact Hp]. exists j. split; [|auto]. apply In_zrange. apply zget_range in J3. lia. }
  destruct (normalise_pairs u l ND) as [E1 E2]. destruct (repeatName_ok _ _ E2) as (rr & Q1 & Q2). exists l. eexists. exists (spread l). split; [exact EL|]. split; [exact E1|]. split.
  - unfold backendElements. cbn [kc_types oall]. rewrite Q1. cbn [MPy.obind]. rewrite Q2. reflexivity.
  - rewrite N1. apply bucketOf_unique; [exact WP|lia| |].
    + intros s Hs. unfold spread in Hs. apply in_flat_map in Hs. destruct Hs as ([n s'] & Hin & Hr). apply repeat_spec in Hr. cbn in Hr. subst s'. apply LI in Hin. destruct Hin as (_ & j & J1 & J2 & _). destruct (wfPT_name pt j WP) as [a Ea]; [apply zget_range in J2; lia|]. pose proof (N2 _ _ Ea). assert (a = s) by congruence. subst a. eauto.
    + intros s k n Es En. rewrite occurs_spread by (intros n' s' Hin; apply LI in Hin; lia). pose proof (N2 _ _ Es) as Nk.
      assert (Hl : forall m, In (m, s) l -> m = n). { intros m Hin. apply LI in Hin. destruct Hin as (_ & j & _ & J2 & J3). destruct (wfPT_name pt j WP) as [a Ea]; [apply zget_range in J2; lia|]. pose proof (N2 _ _ Ea). assert (a = s) by congruence. subst a. assert (j = k) by congruence. subst j. congruence. }
      destruct (Z.eq_dec n 0) as [->|Hn0].
      * symmetry. apply countOf_none. intros Hc. apply in_map_iff in Hc. destruct Hc as ([m s'] & Hs' & Hin). cbn in Hs'. subst s'. pose proof (Hl m Hin). apply LI in Hin. lia.
      * pose proof (HP k n En). assert (Hk : 1 <= k). { apply zget_range in En as Hr. destruct (Z.eq_dec k 0) as [->|]; [congruence|lia]. } assert (Hin : In (n, s) l) by (apply LI; split; [lia|exists k; auto]).
        clear - ND Hin Hl. induction l as [|[m s'] l IH]; [destruct Hin|]. cbn [map snd] in ND. inversion ND as [|? ? Hni ND']; subst. rewrite countOf_cons. destruct Hin as [Hx|Hin].
        -- injection Hx as -> ->. rewrite String.eqb_refl, countOf_none by exact Hni. lia.
        -- destruct (String.eqb_spec s' s) as [->|]; [exfalso; apply Hni; apply in_map_iff; exists (n, s); auto|]. rewrite <- IH; auto. intros m' Hm. apply Hl. right. exact Hm.
Qed.
(** The short bucket format of any list of valid entries: per site one pair per type in order of first appearance, with the total number of particles of that type. *)
Lemma shortSite_entry t given : entryOf t = Some given -> omap itemT (shortSite t) = Some given.
Proof.
  destruct t as [| | | |s|l|l|]; try discriminate; cbn [entryOf shortSite]; intros H.
  - injection H as <-. reflexivity.
  - revert given H. induction l as [|v l IH]; intros given H; cbn [omap] in H; [injection H as <-; reflexivity|]. ob H as x E. ob H as g Eg. injection H as <-. cbn [flat_map].
    assert (X : exists t, match v with VStr s => [[VInt 1; VStr s]] | VTuple u => [u] | _ => [] end = [t] /\ itemT t = Some x).
    { destruct v as [| | | |s|l'|l'|]; try discriminate; [injection E as <-; eexists; split; reflexivity|]. exists l'. split; [reflexivity|exact E]. }
    destruct X as (t & -> & Et). cbn [app omap]. rewrite Et. cbn [obind]. rewrite (IH _ Eg). reflexivity.
  - cbn [omap]. unfold itemT. destruct (itemOf (VTuple l)) as [x|]; [|discriminate]. injection H as <-. reflexivity.
Qed.
Theorem C62_short u types givens : omap entryOf types = Some givens ->
  exists ts, toShortBucketsFormat u types = Ok ts /\ omap (fun b => entryOf (VList (map VTuple b))) ts = Some (map totals givens).
Proof.
  unfold toShortBucketsFormat. revert givens. induction types as [|t types IH]; intros givens H; cbn [omap] in H; [injection H as <-; exists []; split; reflexivity|]. ob H as g E. ob H as gs Es. injection H as <-.
  destruct (IH _ Es) as (ts & T1 & T2). destruct (collectSame_ok u (shortSite t) _ [] (shortSite_entry _ _ E)) as (r & C1 & C2). change (map VStr []) with (@nil pyval) in C1. exists (r :: ts). cbn [oall]. rewrite C1. cbn [MPy.obind]. rewrite T1. split; [reflexivity|].
  cbn [omap map]. change (entryOf (VList (map VTuple r))) with (omap itemOf (map VTuple r)). rewrite omap_itemOf, C2, fresh_nil. cbn [obind]. rewrite T2. reflexivity.
Qed.
Example C62_short_example : exists givens, omap entryOf [VStr "A"; VTuple [VInt 3; VStr "B"]; VList [VStr "A"; VTuple [VInt 2; VStr "B"]; VTuple [VInt 4; VStr "A"]]] = Some givens /\
  map totals givens = [[(1, "A")]; [(3, "B")]; [(5, "A"); (2, "B")]].
Proof. eexists. split; vm_compute; reflexivity. Qed.
(** Entries in normal form with positive counts are recovered from the backend's lists of names.  [r] is any such bucket, as a list of tuples. *)
Theorem C62_identity u r ls pt : entryOf (VList (map VTuple r)) = Some ls -> NoDup (map snd ls) -> (forall k s, In (k, s) ls -> 0 < k) ->
  exists els r', backendElements (mkKC (KBuckets [r]) pt) = Ok [els] /\ toShortBucketsFormat u [VList (map VStr els)] = Ok [r'] /\ entryOf (VList (map VTuple r')) = Some ls.
Proof.
  intros H ND HP. cbn [entryOf] in H. rewrite omap_itemOf in H. destruct (repeatName_ok _ _ H) as (rr & Q1 & Q2). destruct (collectSame_ok u (shortSite (VList (map VStr (spread ls)))) _ [] (shortSite_strs _)) as (r' & C1 & C2).
  exists (spread ls), r'. split; [|split].
  - unfold backendElements. cbn [kc_types oall]. rewrite Q1. cbn [MPy.obind]. rewrite Q2. reflexivity.
  - unfold toShortBucketsFormat. cbn [oall]. change (map VStr []) with (@nil pyval) in C1. rewrite C1. reflexivity.
  - cbn [entryOf]. rewrite omap_itemOf, C2, fresh_nil. f_equal. apply totals_spread; assumption.
Qed.
(** The whole way: the elements of a configuration, converted to the bucket format and given to a new configuration on the same lattice, give the same occupations at every site. *)
Theorem C62_reread u L els possible : 0 < zlen els -> possibleFits possible (concat els) -> (forall names, possible = VList (map VStr names) -> NoDup names) ->
  exists ts c els', toShortBucketsFormat u (map (fun e => VList (map VStr e)) els) = Ok ts /\ KMCConfiguration u L (VList (map (fun b => VList (map VTuple b)) ts)) VNone possible = Ok c /\
    backendElements c = Ok els' /\ Forall2 (@Permutation string) els' els /\ omap (bucketOf (kc_possible c) (zlen (kc_possible c))) els' = omap (bucketOf (kc_possible c) (zlen (kc_possible c))) els.
Proof.
  intros Hpos HF HD.
  assert (G : exists ts els', toShortBucketsFormat u (map (fun e => VList (map VStr e)) els) = Ok ts /\ oall (normaliseEntry u) (map (fun b => VList (map VTuple b)) ts) = Ok ts /\
     (forall pt, backendElements (mkKC (KBuckets ts) pt) = Ok els') /\ Forall2 (@Permutation string) els' els /\ zlen ts = zlen els /\ exists ns, bucketNames ts = Ok ns /\ forall s, In s ns <-> In s (concat els)).
  { clear Hpos HF HD. unfold toShortBucketsFormat, backendElements. induction els as [|e els IH]; [exists [], []; repeat split; auto; exists []; split; [reflexivity|]; intros; reflexivity|].
    destruct IH as (ts & els' & I1 & I2 & I3 & I4 & I5 & ns & I6 & I7). destruct (collectSame_ok u (shortSite (VList (map VStr e))) _ [] (shortSite_strs _)) as (r & C1 & C2). rewrite fresh_nil in C2. fold (totals (map (fun x => (1, x)) e)) in C2. change (map VStr []) with (@nil pyval) in C1.
    set (ls := totals (map (fun x => (1, x)) e)) in *. assert (ND : NoDup (map snd ls)) by (unfold ls, totals; rewrite !map_map; cbn [snd]; rewrite map_id; apply firsts_NoDup).
    assert (NM : map snd ls = firsts e) by (unfold ls, totals; rewrite !map_map; cbn [snd]; rewrite !map_id; reflexivity).
    destruct (repeatName_ok _ _ C2) as (rr & Q1 & Q2). exists (r :: ts), (spread ls :: els'). cbn [map oall]. rewrite C1. cbn [MPy.obind]. rewrite I1. cbn [MPy.obind]. split; [reflexivity|].
    assert (EN : normaliseEntry u (VList (map VTuple r)) = Ok r) by (cbn [normaliseEntry]; rewrite (oall_tuples _ _ C2); cbn [MPy.obind]; eapply mergeEntries_nodup; [exact C2|exact ND|reflexivity]).
    rewrite EN. cbn [MPy.obind]. rewrite I2. split; [reflexivity|]. cbn [kc_types]. split; [|split; [|split]].
    - intros pt. specialize (I3 pt). cbn [kc_types] in I3. cbn [oall]. rewrite Q1. cbn [MPy.obind]. rewrite Q2, I3. reflexivity.
    - constructor; [|exact I4]. apply occurs_perm. intros s. rewrite occurs_spread.
      + destruct (C40_normalises u (VList (map VStr e)) (map (fun x => (1, x)) e)) as (_ & _ & _ & _ & HC); [cbn [entryOf]; clear; induction e as [|x e IHe]; [reflexivity|]; cbn [map omap itemOf obind]; rewrite IHe; reflexivity|]. unfold ls. rewrite HC. apply countOf_ones.
      + intros k x Hin. unfold ls, totals in Hin. apply in_map_iff in Hin. destruct Hin as (a & Ha & _). injection Ha as <- <-. rewrite countOf_ones. unfold occurs. apply zlen_nonneg.
    - rewrite !zlen_cons. lia.
    - unfold bucketNames in *. cbn [concat]. assert (GN : forall r ls m ms, omap itemT r = Some ls -> oall (fun t => try n <- snd_ t ;; match n with VStr s => Ok s | _ => Raise TypeError end) m = Ok ms ->
         oall (fun t => try n <- snd_ t ;; match n with VStr s => Ok s | _ => Raise TypeError end) (r ++ m) = Ok (map snd ls ++ ms)).
      { clear. induction r as [|t r IH]; intros ls m ms H HM; cbn [omap] in H; [injection H as <-; exact HM|]. ob H as x E. destruct x as [k s]. ob H as ls' E2. injection H as <-. apply itemT_inv in E as (n & -> & En). cbn [app oall snd_ MPy.obind map snd]. rewrite (IH _ _ _ E2 HM). reflexivity. }
      rewrite (GN _ _ _ _ C2 I6). eexists. split; [reflexivity|]. intros s. rewrite in_app_iff, NM, firsts_In, I7, in_app_iff. reflexivity. }
  destruct G as (ts & els' & G1 & G2 & G3 & G4 & G5 & ns & G6 & G7). exists ts.
  assert (HF' : possibleFits possible ns). { destruct HF as [[-> Hn]|(names & -> & Hn & Hi)]; [left; split; [reflexivity|]; rewrite G7; exact Hn|right; exists names; split; [reflexivity|]; split; [exact Hn|]; intros x Hx; apply Hi, G7; exact Hx]. }
  assert (EC : KMCConfiguration u L (VList (map (fun b => VList (map VTuple b)) ts)) VNone possible = Ok (mkKC (KBuckets ts) (dictZip ("*" :: possibleNames possible ns)))).
  { cbn [KMCConfiguration]. destruct ts as [|b ts]; [unfold zlen in *; cbn in *; lia|]. assert (D : detectTypesFormat (map (fun b => VList (map VTuple b)) (b :: ts)) = Ok Buckets) by reflexivity. rewrite D. cbn [MPy.obind]. rewrite G2. cbn [MPy.obind]. rewrite G6. cbn [MPy.obind]. apply possibleTypes_ok in HF'. rewrite HF'. reflexivity. }
  eexists. exists els'. split; [exact G1|]. split; [exact EC|]. split; [apply G3|]. split; [exact G4|]. cbn [kc_possible].
  destruct (C43_numbers_partial _ _ _ _ _ _ EC HD) as (names & WP & _). cbn [kc_possible] in WP. clear - G4 WP. induction G4 as [|a b l m Hp HF2 IH]; [reflexivity|]. cbn [omap]. rewrite (bucketOf_perm _ _ _ WP Hp), IH. reflexivity.
Qed.
Example C62_example : exists ts, toShortBucketsFormat 1 (map (fun e => VList (map VStr e)) [["A"; "B"; "A"]; ["V"]; []]) = Ok ts /\ ts = [[[VInt 2; VStr "A"]; [VInt 1; VStr "B"]]; [[VInt 1; VStr "V"]]; []] /\
  possibleFits (VList (map VStr ["V"; "A"; "B"; "C"])) (concat [["A"; "B"; "A"]; ["V"]; []]) /\ bucketToPython ["*"; "A"; "B"; "V"] [0; 3; 0; 2] = Some [(3, "A"); (2, "V")].
Proof.
  eexists. split; [reflexivity|]. split; [reflexivity|]. split; [|reflexivity]. right. eexists. split; [reflexivity|]. split; [cbn; intuition discriminate|]. intros x Hx. cbn in *. intuition.
Qed.
Print Assumptions C40_normalises. Print Assumptions C40_idempotent. Print Assumptions C40_rejects_partial. Print Assumptions C40_malformed_refuted.
Print Assumptions C41_long. Print Assumptions C41_rejects. Print Assumptions C41_six_elements_refuted. Print Assumptions C41_short.
Print Assumptions C42_one_per_site_partial. Print Assumptions C42_buckets_refuted. Print Assumptions C43_numbers_partial. Print Assumptions C43_duplicates_refuted.
Print Assumptions C62_reported. Print Assumptions C62_identity. Print Assumptions C62_reread.
Print Assumptions C62_short.
