(** C88: a row of a bucket process whose update adds the wildcard is ignored as a whole; the other rows act as written. *)
From Verif Require Import PBase SModel SGeo SEvent SBuild SPlain SStep SBucket SWild PPerform PRun PEffect PEvent PBuild PBucket PWild PGeo XCheck XSystems XRows PGeo.
Open Scope string_scope.
Open Scope list_scope.
Open Scope Z_scope.

Section Wild.
Context (S : Z) (pt : tmap) (rows : list brow) (basis : list Z) (p : process).
Context (WP : wfPT pt) (AU : anyUpdates rows) (B : builtBucket S pt rows basis p).
(** q is the process that is performed: p, perhaps with implicit wildcards *)
Context (cf : config) (q : process) (x : Z) (sl : list centry) (cf' : config) (q' : process).
Context (SL : zget (cf_mlists cf) x = Some sl) (ND : NoDup (map ce_index sl)) (P : performBucketProcess cf q x = Some (cf', q')).
(** entry k of q is the entry of row r, and meets the site y *)
Definition meets (k : Z) (r : brow) (y : Z) : Prop :=
  exists e c, zget (pr_ml q) k = Some e /\ In e (pr_ml p) /\ In r rows /\ pe_c e = br_c r /\ zget sl k = Some c /\ ce_index c = y.

Lemma meets_entry k r y : meets k r y -> exists e c, zget (pr_ml q) k = Some e /\ zget sl k = Some c /\ ce_index c = y /\ entryForB pt r e.
Proof using WP AU B.
  intros (e & c & E1 & H1 & Hr & Ec & E2 & Ey). destruct (builtBucket_any _ _ _ _ _ WP AU B) as [es BO].
  destruct (bml_row _ _ _ _ _ _ BO e H1) as (r' & Hr' & F). destruct AU as (_ & NC & _). rewrite (row_of _ _ _ _ _ NC Hr Hr' F Ec) in F. eauto 10.
Qed.
Lemma at_entry k e c : zget (pr_ml q) k = Some e -> zget sl k = Some c ->
  atSite (ce_index c) (activeList (pr_ml q) sl) = if isActive (pe_upd e) then [(e, c)] else [].
Proof using ND.
  intros E1 E2. destruct (atSite_is (ce_index c) (pr_ml q) sl ND) as [[EA HN]|(j & e2 & c2 & EA & A1 & A2 & A3 & A4)]; rewrite EA.
  - rewrite (HN k e c E1 E2 eq_refl). reflexivity.
  - assert (j = k). { eapply (NoDup_zget_inj (map ce_index sl)); [exact ND| |]; rewrite zget_map; [rewrite A2|rewrite E2]; cbn; [rewrite A3|]; reflexivity. }
    subst j. assert (e2 = e) by congruence. assert (c2 = c) by congruence. subst. rewrite A4. reflexivity.
Qed.

(** a row that adds the wildcard changes nothing at its site *)
Theorem C88_ignored k r y : meets k r y -> addsWildcard r ->
  zget (cf_types cf') y = zget (cf_types cf) y /\ zget (cf_elements cf') y = zget (cf_elements cf) y.
Proof using WP AU B SL ND P.
  intros M HW. destruct (meets_entry _ _ _ M) as (e & c & E1 & E2 & <- & F).
  assert (I : isActive (pe_upd e) = false). { apply (wild_inactive _ (change (br_upd r) "*")); [|exact HW]. apply (eb_upd _ _ _ F). apply WP. }
  destruct (perform_spec _ _ _ _ _ P) as (sl' & cf1 & aff & ups & PX). assert (sl' = sl) by (pose proof (px_sl _ _ _ _ _ _ _ _ _ PX); congruence). subst sl'.
  pose proof (at_entry k e c E1 E2) as EA. rewrite I in EA. pose proof (px_loop _ _ _ _ _ _ _ _ _ PX) as LX. split.
  - rewrite (px_types _ _ _ _ _ _ _ _ _ PX), (lx_types _ _ _ _ _ _ _ LX), EA. cbn [set_event cf_types map ofold]. destruct (zget (cf_types cf) (ce_index c)); reflexivity.
  - pose proof (lx_elements _ _ _ _ _ _ _ LX (ce_index c)) as HE. rewrite EA in HE. cbn in HE. rewrite (px_elements _ _ _ _ _ _ _ _ _ PX). exact HE.
Qed.

(** a row that does not mention the wildcard changes the number of every type as written *)
Theorem C88_others k r y : meets k r y -> change (br_upd r) "*" = 0 ->
  forall t, zget (cf_types cf) y = Some t -> exists t', zget (cf_types cf') y = Some t' /\
    forall s i n, tfind pt s = Some i -> zget t i = Some n -> zget t' i = Some (n + change (br_upd r) s).
Proof using WP AU B SL ND P.
  intros M HW t Et. destruct (meets_entry _ _ _ M) as (e & c & E1 & E2 & <- & F).
  destruct (perform_spec _ _ _ _ _ P) as (sl' & cf1 & aff & ups & PX). assert (sl' = sl) by (pose proof (px_sl _ _ _ _ _ _ _ _ _ PX); congruence). subst sl'.
  pose proof (at_entry k e c E1 E2) as EA. pose proof (lx_types _ _ _ _ _ _ _ (px_loop _ _ _ _ _ _ _ _ _ PX) (ce_index c)) as HT.
  rewrite <- (px_types _ _ _ _ _ _ _ _ _ PX), EA in HT. cbn [set_event cf_types] in HT. rewrite Et in HT. cbn [obind] in HT.
  assert (W0 : zget (pe_upd e) 0 = Some 0) by (rewrite (eb_upd _ _ _ F "*" 0); [f_equal; exact HW|apply WP]).
  destruct (isActive (pe_upd e)) eqn:I; cbn [map ofold fst] in HT.
  - destruct (zget_lt (cf_types cf') (ce_index c)) as [t' Et'].
    { rewrite (pf_lt _ _ (px_frame _ _ _ _ _ _ _ _ _ PX)). eapply zget_range; eauto. }
    exists t'. split; [exact Et'|]. rewrite Et' in HT. symmetry in HT. ob HT as t2 HU. inversion HT; subst t2.
    intros s i n Hs Hn. eapply applyUpdate_get; eauto. apply (eb_upd _ _ _ F). exact Hs.
  - exists t. split; [exact HT|]. intros s i n Hs Hn. assert (change (br_upd r) s = 0) as ->; [|rewrite Z.add_0_r; exact Hn].
    apply (zsum_abs_zero_iff (pe_upd e)) with (k := i); [|apply (eb_upd _ _ _ F); exact Hs].
    destruct (Z_le_gt_dec (zsum (map Z.abs (pe_upd e))) 0) as [H|H]; [exact H|]. exfalso.
    assert (isActive (pe_upd e) = true) by (apply isActive_iff; [exact W0|lia]). congruence.
Qed.
End Wild.

(** an A leaves the origin; the row next to it wants to add an A and a "*" and is ignored *)
Definition wildRows : list brow := [mkBRow czero ["A"] [("A", -1)]; mkBRow (mkC 5 5 5) ["V"] [("*", 1); ("A", 1)]].
Definition isB (a b : bucket) : bool := if list_eq_dec Z.eq_dec b a then true else false.
Lemma isB_sound o a : somewhere o (isB a) = true -> o = Some a.
Proof. destruct o as [b|]; cbn; [|discriminate]. unfold isB. destruct (list_eq_dec Z.eq_dec b a); congruence. Qed.
Definition peqb (a b : pentry) : bool :=
  Bool.eqb (pe_hasmove a) (pe_hasmove b) && (pe_d2 a =? pe_d2 b) && ceqb (pe_c a) (pe_c b) && ceqb (pe_move a) (pe_move b) && isB (pe_match a) (pe_match b) && isB (pe_upd a) (pe_upd b).
Lemma peqb_eq a b : peqb a b = true -> a = b.
Proof.
  unfold peqb, isB. rewrite !andb_true_iff. intros [[[[[H1 H2] H3] H4] H5] H6]. apply Bool.eqb_prop in H1. apply Z.eqb_eq in H2. apply ceqb_eq in H3, H4.
  destruct (list_eq_dec Z.eq_dec (pe_match b) (pe_match a)); [|discriminate]. destruct (list_eq_dec Z.eq_dec (pe_upd b) (pe_upd a)); [|discriminate]. destruct a, b. cbn in *. congruence.
Qed.
(** at rank k of the surroundings: an entry of p at position c, and a site with this occupation before and after *)
Definition meetsb (p q : process) (sl : list centry) (cf cf' : config) (k : Z) (c : coord) (t t' : bucket) : bool :=
  somewhere (zget (pr_ml q) k) (fun e => somewhere (zget sl k) (fun s => existsb (peqb e) (pr_ml p) && ceqb (pe_c e) c &&
    somewhere (zget (cf_types cf) (ce_index s)) (isB t) && somewhere (zget (cf_types cf') (ce_index s)) (isB t'))).
Lemma meetsb_sound rows p q sl cf cf' k r t t' : meetsb p q sl cf cf' k (br_c r) t t' = true -> In r rows ->
  exists y, meets rows p q sl k r y /\ zget (cf_types cf) y = Some t /\ zget (cf_types cf') y = Some t'.
Proof.
  unfold meetsb. intros H Hr. apply somewhere_Some in H. destruct H as (e & Ee & H). apply somewhere_Some in H. destruct H as (s & Es & H). rewrite !andb_true_iff in H. destruct H as [[[H1 H2] H3] H4].
  apply existsb_exists in H1. destruct H1 as (e' & Hin & He). apply peqb_eq in He. subst e'. apply ceqb_eq in H2. apply isB_sound in H3, H4. exists (ce_index s). split; [exists e, s; auto 10|auto].
Qed.
Definition wildCase (Q : process -> process -> list centry -> config -> config -> bool) : bool :=
  somewhere x2cf (fun cf => somewhere (buildSpec xS x2pt (bucket1 wildRows 0 4) 0) (fun p => somewhere (mkLatticeModel 3 xhash x2L cf (mkInteractions [p] true false norc)) (fun md =>
    somewhere (zget (in_procs (md_in md)) 0) (fun q => somewhere (zget (cf_mlists (md_cf md)) 0) (fun sl => somewhere (performBucketProcess (md_cf md) q 0) (fun r => Q p q sl (md_cf md) (fst r))))))).
(** site 0 holds two A and a V, the other one a B and a V *)
Example C88_example : exists p q cf sl cf' q' k y k0 y0,
  wfPT x2pt /\ anyUpdates wildRows /\ builtBucket xS x2pt wildRows [0] p /\ zget (cf_mlists cf) 0 = Some sl /\ NoDup (map ce_index sl) /\
  performBucketProcess cf q 0 = Some (cf', q') /\
  (meets wildRows p q sl k (mkBRow (mkC 5 5 5) ["V"] [("*", 1); ("A", 1)]) y /\ addsWildcard (mkBRow (mkC 5 5 5) ["V"] [("*", 1); ("A", 1)]) /\
   zget (cf_types cf) y = Some [0; 0; 1; 1] /\ zget (cf_types cf') y = Some [0; 0; 1; 1]) /\
  (meets wildRows p q sl k0 (mkBRow czero ["A"] [("A", -1)]) y0 /\ zget (cf_types cf) y0 = Some [0; 2; 0; 1] /\ zget (cf_types cf') y0 = Some [0; 1; 0; 1]).
Proof.
  assert (H : wildCase (fun p q sl cf cf' => nodupb Z.eqb (map ce_index sl) && existsb (fun k => meetsb p q sl cf cf' k (mkC 5 5 5) [0; 0; 1; 1] [0; 0; 1; 1]) (zrange 0 30) &&
     meetsb p q sl cf cf' 0 czero [0; 2; 0; 1] [0; 1; 0; 1]) = true) by (vm_compute; reflexivity).
  unfold wildCase in H. apply somewhere_Some in H. destruct H as (cf0 & _ & H). apply somewhere_Some in H. destruct H as (p & Ep & H). apply somewhere_Some in H. destruct H as (md & _ & H).
  apply somewhere_Some in H. destruct H as (q & Eq & H). apply somewhere_Some in H. destruct H as (sl & Esl & H). apply somewhere_Some in H. destruct H as ([cf' q'] & Er & H). cbn [fst] in H.
  rewrite !andb_true_iff in H. destruct H as [[HN H1] H2]. apply existsb_exists in H1. destruct H1 as (k & _ & H1).
  apply (meetsb_sound wildRows _ _ _ _ _ _ (mkBRow (mkC 5 5 5) ["V"] [("*", 1); ("A", 1)])) in H1; [|right; left; reflexivity]. destruct H1 as (y & M1 & A1 & A2).
  apply (meetsb_sound wildRows _ _ _ _ _ _ (mkBRow czero ["A"] [("A", -1)])) in H2; [|left; reflexivity]. destruct H2 as (y0 & M2 & B1 & B2).
  exists p, q, (md_cf md), sl, cf', q', k, y, 0, y0. split; [apply wfPTb_sound; vm_compute; reflexivity|]. split.
  { split; [discriminate|]. split; [eapply (nodupb_sound ceqb); [apply ceqb_refl|vm_compute; reflexivity]|]. intros r [<-|[<-|[]]]; apply nodupS_sound; vm_compute; reflexivity. }
  split. { unfold buildSpec in Ep. cbn [bucket1 xs_spec xs_custom xs_rate xs_basis] in Ep. ob Ep as f Ef. exists f, 4, 0. split; [exact Ef|]. left. exact Ep. }
  split; [exact Esl|]. split; [eapply (nodupb_sound Z.eqb); [apply Z.eqb_refl|exact HN]|]. split; [exact Er|]. split; [|auto].
  split; [exact M1|]. split; [|auto]. unfold addsWildcard. reflexivity.
Qed.

Print Assumptions C88_ignored.
Print Assumptions C88_others.
