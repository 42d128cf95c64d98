(** C09, C11, C15 for the bookkeeping interface of a process (add a site with a rate and a multiplicity, remove a site, pick
    a site), for arbitrary sequences of calls and arbitrary multiplicities. *)
From Verif Require Import PBase SModel PProcess PSelect PEffect.
Open Scope Z_scope.
Open Scope list_scope.

(** ** Specification *)
Inductive call := Add (x rate mult : Z) | Remove (x : Z).
Definition callOn (p : process) (c : call) : option process :=
  match c with Add x r m => Some (addSite p x r m) | Remove x => removeSite p x end.
Definition callsOn (p : process) (cs : list call) : option process := ofold callOn cs p.
(** what should be listed after the calls: sites with the weights of their events.  Without a rate calculator
    the rate is the rate constant of the process. *)
Definition weight (p : process) (r m : Z) : Z := m * (if pr_custom p then r else pr_rate p).
Fixpoint listedAfter (p : process) (cs : list call) (now : list (Z * Z)) : list (Z * Z) :=
  match cs with
  | [] => now
  | Add x r m :: cs' => listedAfter p cs' ((x, weight p r m) :: now)
  | Remove x :: cs' => listedAfter p cs' (filter (fun e => negb (fst e =? x)) now)
  end.
(** only sites that are not listed are added, only listed sites are removed *)
Fixpoint properCalls (cs : list call) (now : list Z) : Prop :=
  match cs with
  | [] => True
  | Add x _ _ :: cs' => ~ In x now /\ properCalls cs' (x :: now)
  | Remove x :: cs' => In x now /\ properCalls cs' (filter (fun y => negb (y =? x)) now)
  end.

(** ** Proofs *)
Notation triple := (Z * (Z * Z))%type.
Definition wt (p : process) (t : triple) : Z := weight p (fst (snd t)) (snd (snd t)).
Definition ev (p : process) (t : triple) : Z * Z := (fst t, wt p t).
Record rep (p0 p : process) (T : list triple) : Prop := {
  rp_custom : pr_custom p = pr_custom p0;
  rp_rate : pr_rate p = pr_rate p0;
  rp_sites : pr_sites p = map fst T;
  rp_mult : pr_mult p = map (fun t => snd (snd t)) T;
  rp_srates : pr_custom p0 = true -> pr_srates p = map (fun t => fst (snd t)) T;
  rp_total : pr_total p = zsum (map (wt p0) T);
  rp_nodup : NoDup (map fst T) }.
Lemma zset_map {A B} (f : A -> B) l : forall i a, zset (map f l) i (f a) = option_map (map f) (zset l i a).
Proof.
  intros i a. destruct (zset l i a) as [l'|] eqn:E.
  - assert (Hr : 0 <= i < zlen l) by (apply zset_Some in E; apply E). destruct (zget_lt l i Hr) as [x Ex]. destruct (zget_split _ _ _ Ex) as (l1 & l2 & -> & <-). rewrite zset_split in E. injection E as <-.
    rewrite map_app. cbn [map]. rewrite <- (zlen_map f l1), zset_split. cbn [option_map]. rewrite map_app. reflexivity.
  - destruct (zset (map f l) i (f a)) as [m|] eqn:Em; [|reflexivity]. exfalso. assert (Hr : 0 <= i < zlen (map f l)) by (apply zset_Some in Em; apply Em). rewrite zlen_map in Hr.
    destruct (zget_lt l i Hr) as [x Ex]. destruct (zget_split _ _ _ Ex) as (l1 & l2 & -> & <-). rewrite zset_split in E. discriminate.
Qed.
Lemma removelast_map {A B} (f : A -> B) l : removelast (map f l) = map f (removelast l).
Proof. induction l as [|a l IH]; [reflexivity|]. cbn [map removelast]. destruct l as [|b l]; [reflexivity|]. cbn [map] in *. rewrite IH. reflexivity. Qed.
Lemma swapRemove_map {A B} (f : A -> B) l pos l' x : swapRemove l pos = Some (l', x) -> swapRemove (map f l) pos = Some (map f l', f x).
Proof.
  unfold swapRemove. intros H. ob H as y Ey. ob H as z Ez. ob H as m Em. injection H as <- <-. rewrite zget_map, Ey. cbn [option_map obind]. rewrite zlen_map, zget_map, Ez. cbn [option_map obind].
  rewrite zset_map, Em. cbn [option_map obind]. rewrite removelast_map. reflexivity.
Qed.
Lemma rep_add p0 p T x r m : rep p0 p T -> ~ In x (map fst T) -> rep p0 (addSite p x r m) (T ++ [(x, (r, m))]).
Proof.
  intros [] Hx. assert (HW : zsum (map (wt p0) (T ++ [(x, (r, m))])) = zsum (map (wt p0) T) + weight p0 r m) by (rewrite map_app, zsum_app; cbn [map]; unfold zsum at 2; cbn; unfold wt; cbn; lia).
  assert (HN : NoDup (map fst (T ++ [(x, (r, m))]))). { rewrite map_app. cbn [map fst]. eapply Permutation_NoDup; [apply Permutation_cons_append|]. constructor; assumption. }
  unfold addSite. rewrite rp_custom0. unfold weight in HW. destruct (pr_custom p0) eqn:Ec; constructor; cbn [set_sites pr_custom pr_rate pr_sites pr_mult pr_srates pr_total].
  - congruence.
  - exact rp_rate0.
  - rewrite map_app, rp_sites0. reflexivity.
  - rewrite map_app, rp_mult0. reflexivity.
  - intros _. rewrite map_app, rp_srates0 by reflexivity. reflexivity.
  - rewrite HW, rp_total0. reflexivity.
  - exact HN.
  - congruence.
  - exact rp_rate0.
  - rewrite map_app, rp_sites0. reflexivity.
  - rewrite map_app, rp_mult0. reflexivity.
  - congruence.
  - rewrite HW, rp_total0, rp_rate0. reflexivity.
  - exact HN.
Qed.
Lemma filter_others (T T' : list triple) x r m : NoDup (map fst T) -> Permutation T ((x, (r, m)) :: T') -> forall p0, Permutation (map (ev p0) T') (filter (fun e => negb (fst e =? x)) (map (ev p0) T)).
Proof.
  intros ND HP p0. assert (ND' : NoDup (map fst ((x, (r, m)) :: T'))) by (eapply Permutation_NoDup; [apply Permutation_map; exact HP|exact ND]). cbn [map fst] in ND'. inversion ND'; subst.
  assert (F : forall l m : list (Z * Z), Permutation l m -> Permutation (filter (fun e => negb (fst e =? x)) l) (filter (fun e => negb (fst e =? x)) m)).
  { clear. intros l m H. induction H; cbn [filter]; [constructor| | |eapply perm_trans; eauto]; [destruct (negb (fst x0 =? x)); [constructor|]; assumption|].
    destruct (negb (fst y =? x)), (negb (fst x0 =? x)); try apply Permutation_refl. apply perm_swap. }
  rewrite (F _ _ (Permutation_map (ev p0) HP)). cbn [map filter]. unfold ev at 2. cbn [fst]. rewrite Z.eqb_refl. cbn [negb].
  assert (G : forall l : list triple, ~ In x (map fst l) -> filter (fun e => negb (fst e =? x)) (map (ev p0) l) = map (ev p0) l).
  { clear. induction l as [|a l IH]; intros H; [reflexivity|]. cbn [map filter]. unfold ev at 1. cbn [fst]. cbn [map In] in H. destruct (Z.eqb_spec (fst a) x); [tauto|]. cbn [negb]. rewrite IH by tauto. reflexivity. }
  rewrite G by assumption. apply Permutation_refl.
Qed.
Lemma rep_remove p0 p T x : rep p0 p T -> In x (map fst T) -> exists q T' r m, removeSite p x = Some q /\ rep p0 q T' /\ Permutation T ((x, (r, m)) :: T').
Proof.
  intros [] Hx. destruct (zfind_spec (map fst T) x Hx) as [F1 F2]. set (pos := zfind (map fst T) x) in *.
  rewrite zget_map in F1. destruct (zget T pos) as [[y [r m]]|] eqn:Et; [|exfalso; cbn in F1; discriminate F1]. cbn in F1. assert (y = x) by congruence. subst y.
  destruct (swapRemove_spec _ _ _ Et) as (T' & ES & _). destruct (swapRemove_perm _ _ _ _ ES) as [HP _].
  assert (HT : zsum (map (wt p0) T) = weight p0 r m + zsum (map (wt p0) T')).
  { rewrite (zsum_perm _ _ (Permutation_map (wt p0) HP)). cbn [map]. unfold zsum at 1. cbn [fold_right]. unfold wt at 1. cbn [fst snd]. reflexivity. }
  assert (HN : NoDup (map fst T')). { assert (H : NoDup (map fst ((x, (r, m)) :: T'))) by (eapply Permutation_NoDup; [apply Permutation_map; exact HP|exact rp_nodup0]). cbn [map fst] in H. inversion H; assumption. }
  unfold removeSite. rewrite rp_sites0. fold pos. rewrite (swapRemove_map fst _ _ _ _ ES). cbn [obind].
  rewrite rp_custom0. unfold weight in HT. destruct (pr_custom p0) eqn:Ec.
  - rewrite rp_srates0 by reflexivity. rewrite (swapRemove_map (fun t => fst (snd t)) _ _ _ _ ES). cbn [obind]. rewrite rp_mult0, (swapRemove_map (fun t => snd (snd t)) _ _ _ _ ES). cbn [obind fst snd].
    eexists _, T', r, m. split; [reflexivity|]. split; [|exact HP]. constructor; cbn [set_sites pr_custom pr_rate pr_sites pr_mult pr_srates pr_total]; try congruence; try assumption. rewrite rp_total0, HT. ring.
  - rewrite rp_mult0, (swapRemove_map (fun t => snd (snd t)) _ _ _ _ ES). cbn [obind fst snd].
    eexists _, T', r, m. split; [reflexivity|]. split; [|exact HP]. constructor; cbn [set_sites pr_custom pr_rate pr_sites pr_mult pr_srates pr_total]; try congruence; try assumption. rewrite rp_total0, HT, rp_rate0. ring.
Qed.
Lemma filter_perm_gen {A} (f : A -> bool) l m : Permutation l m -> Permutation (filter f l) (filter f m).
Proof. intros H. induction H; cbn [filter]; [constructor|destruct (f x); [constructor|]; assumption| |eapply perm_trans; eauto]. destruct (f y), (f x); try apply Permutation_refl. apply perm_swap. Qed.
Lemma listedAfter_perm p cs : forall l m, Permutation l m -> Permutation (listedAfter p cs l) (listedAfter p cs m).
Proof. induction cs as [|[x r m|x] cs IH]; intros l n H; cbn [listedAfter]; [exact H| |]; apply IH; [constructor; exact H|apply filter_perm_gen; exact H]. Qed.
Lemma properCalls_ext cs : forall l m, (forall x, In x l <-> In x m) -> properCalls cs l -> properCalls cs m.
Proof.
  induction cs as [|[x r n|x] cs IH]; intros l m H HP; cbn [properCalls] in *; [exact I| |]; destruct HP as [A B]; (split; [rewrite <- H; exact A|]); (eapply IH; [|exact B]); intros y.
  - cbn [In]. rewrite H. tauto.
  - rewrite !filter_In, H. tauto.
Qed.
Lemma map_fst_ev p0 T : map fst (map (ev p0) T) = map fst T. Proof. rewrite map_map. reflexivity. Qed.
Lemma calls_rep p0 cs : forall p T, rep p0 p T -> properCalls cs (map fst T) ->
  exists q T', callsOn p cs = Some q /\ rep p0 q T' /\ Permutation (map (ev p0) T') (listedAfter p0 cs (map (ev p0) T)).
Proof.
  induction cs as [|[x r m|x] cs IH]; intros p T R HP; cbn [properCalls] in HP.
  - exists p, T. split; [reflexivity|]. split; [exact R|apply Permutation_refl].
  - destruct HP as [A B]. destruct (IH _ _ (rep_add _ _ _ x r m R A)) as (q & T' & E & R' & P').
    { eapply properCalls_ext; [|exact B]. intros y. rewrite map_app, in_app_iff. cbn [map fst In]. tauto. }
    exists q, T'. split; [exact E|]. split; [exact R'|]. rewrite P'. cbn [listedAfter]. apply listedAfter_perm. rewrite map_app. cbn [map]. symmetry. apply Permutation_cons_append.
  - destruct HP as [A B]. destruct (rep_remove _ _ _ _ R A) as (q & T1 & r & m & E1 & R1 & P1). destruct (IH _ _ R1) as (q' & T' & E & R' & P').
    { pose proof (rp_nodup _ _ _ R) as ND. eapply properCalls_ext; [|exact B]. intros y. rewrite filter_In, negb_true_iff, Z.eqb_neq.
      assert (ND' : NoDup (map fst ((x, (r, m)) :: T1))) by (eapply Permutation_NoDup; [apply Permutation_map; exact P1|exact ND]). cbn [map fst] in ND'. inversion ND'; subst.
      split.
      - intros [H H']. apply (Permutation_in _ (Permutation_map fst P1)) in H. cbn [map fst In] in H. destruct H; [congruence|assumption].
      - intros H. split; [apply (Permutation_in _ (Permutation_sym (Permutation_map fst P1))); right; exact H|intros ->; contradiction]. }
    exists q', T'. split; [unfold callsOn in *; cbn [ofold callOn]; rewrite E1; exact E|]. split; [exact R'|]. rewrite P'. cbn [listedAfter]. apply listedAfter_perm. eapply filter_others; [apply R|exact P1].
Qed.
Lemma rep_rates p0 p T : rep p0 p T -> siteRates p = Some (map (wt p0) T).
Proof.
  intros []. unfold siteRates. rewrite rp_custom0. destruct (pr_custom p0) eqn:Ec.
  - rewrite rp_mult0, rp_srates0 by reflexivity. rewrite zlen_map. rewrite <- (zlen_map (wt p0) T). apply omap_zget_id. intros i a Ea. rewrite zget_map in Ea. rewrite !zget_map.
    destruct (zget T i) as [t|]; [|discriminate]. cbn [option_map obind] in *. injection Ea as <-. unfold wt, weight. rewrite Ec. f_equal. ring.
  - rewrite rp_mult0, map_map, rp_rate0. f_equal. apply map_ext. intros t. unfold wt, weight. rewrite Ec. ring.
Qed.

(** ** Theorems *)
(** Starting from a process without listed sites, any proper sequence of additions and removals succeeds; afterwards exactly the right sites
    are listed, each once, and the total rate of the process is the sum of multiplicity times rate over them. *)
Theorem C09_C11_bookkeeping p cs : properCalls cs [] ->
  exists q, callsOn (clearSites p) cs = Some q /\ NoDup (pr_sites q) /\ Permutation (pr_sites q) (map fst (listedAfter p cs [])) /\
    pr_total q = zsum (map snd (listedAfter p cs [])).
Proof.
  intros HP. assert (R0 : rep p (clearSites p) []) by (constructor; try reflexivity; constructor).
  destruct (calls_rep p cs _ _ R0 HP) as (q & T & E & R & P). exists q. split; [exact E|]. cbn [map] in P. destruct R. rewrite rp_sites0. split; [exact rp_nodup0|]. split.
  - rewrite <- P, map_fst_ev. apply Permutation_refl.
  - rewrite rp_total0. rewrite <- (zsum_perm _ _ (Permutation_map snd P)). rewrite map_map. reflexivity.
Qed.
(** Weighted selection: of k times the total weight equally spaced deviates, k times multiplicity times rate select the site. *)
Theorem C11_C15_weighted_selection p cs q q' x w k : properCalls cs [] -> callsOn (clearSites p) cs = Some q -> updateRateTable q = Some q' ->
  (forall e, In e (listedAfter p cs []) -> 0 <= snd e) -> In (x, w) (listedAfter p cs []) -> 0 < pr_total q -> 0 < k ->
  zlen (filter (fun j => match pickSite q' (mkDev j (k * pr_total q)) with Some y => y =? x | None => false end) (zrange 1 (k * pr_total q))) = k * w.
Proof.
  intros HP E Eq Hn Hin Ht Hk. assert (R0 : rep p (clearSites p) []) by (constructor; try reflexivity; constructor).
  destruct (calls_rep p cs _ _ R0 HP) as (q2 & T & E2 & R & P). assert (q2 = q) by congruence. subst q2. cbn [map] in P.
  apply (Permutation_in _ (Permutation_sym P)) in Hin. apply in_map_iff in Hin. destruct Hin as (t & Et & Hin). injection Et as Ex Ew. apply In_zget in Hin. destruct Hin as [n En].
  rewrite (rp_total _ _ _ R) in *. set (rs := map (wt p) T) in *.
  assert (Hpos : forall a, In a rs -> 0 <= a). { intros a Ha. apply in_map_iff in Ha. destruct Ha as (t' & <- & Ht'). apply (Hn (ev p t')). apply (Permutation_in _ P). apply in_map. exact Ht'. }
  assert (Ern : zget rs n = Some w) by (unfold rs; rewrite zget_map, En; cbn; congruence).
  apply count_chosen with (i := n); [exact Hpos|exact Ht|exact Hk|exact Ern|].
  intros j Hj. unfold updateRateTable in Eq. rewrite (rep_rates _ _ _ R) in Eq. cbn [obind] in Eq. injection Eq as <-. fold rs. unfold pickSite. cbn [set_inc pr_inc pr_sites].
  destruct (zget (incTable 0 rs) (zlen (incTable 0 rs) - 1)) as [tot|] eqn:Etot; cbn [obind].
  2:{ exfalso. destruct (zget_lt (incTable 0 rs) (zlen (incTable 0 rs) - 1)) as [z Ez]; [|congruence]. unfold zlen. rewrite incTable_length. apply zget_range in Ern. unfold zlen in Ern. lia. }
  apply incTable_last in Etot. subst tot. set (u := mkDev j (k * zsum rs)).
  destruct (lower_bound_total (belowDev u (zsum rs)) (incTable 0 rs)) as [pos Epos]. rewrite Epos. cbn [obind].
  assert (Hu : 0 < dv_num u <= dv_den u) by (unfold u; cbn [dv_num dv_den]; lia). destruct (select_chosen _ _ _ Hpos Hu Ht Epos) as [Hp HC].
  assert (HD : 0 < dv_den u) by (unfold u; cbn [dv_den]; nia).
  apply zget_range in Ern as Hn'. rewrite (rp_sites _ _ _ R), zget_map.
  destruct (zget T pos) as [t'|] eqn:Et'; [|apply zget_None in Et'; unfold rs in Hp; rewrite zlen_map in Hp; lia]. cbn [option_map]. rewrite Z.eqb_eq. split.
  - intros Ey. assert (pos = n); [|subst; exact HC]. eapply (NoDup_zget_inj (map fst T)); [apply R|rewrite zget_map, Et'; reflexivity|rewrite zget_map, En; cbn; congruence].
  - intros HC'. assert (pos = n) by (eapply chosen_unique; eauto; lia). subst. congruence.
Qed.

(** a custom rate process: three sites with multiplicities 2, 3 and 1, one of them removed *)
Definition wp : process := mkPR true false 0 1 5 0 [] [] [] [] [] [] [0] [] true 0.
Definition wcalls : list call := [Add 7 10 2; Add 3 4 3; Add 9 5 1; Remove 7].
Example C09_C11_C15_weights_example : properCalls wcalls [] /\ listedAfter wp wcalls [] = [(9, 5); (3, 12)] /\
  exists q q', callsOn (clearSites wp) wcalls = Some q /\ updateRateTable q = Some q' /\ pr_total q = 17 /\ pickSite q' (mkDev 1 2) = Some 3.
Proof.
  split; [cbn; repeat split; intuition lia|]. split; [reflexivity|]. destruct (callsOn (clearSites wp) wcalls) as [q|] eqn:E; [|vm_compute in E; discriminate].
  vm_compute in E. injection E as <-. do 2 eexists. split; [reflexivity|]. split; [vm_compute; reflexivity|]. split; reflexivity.
Qed.
Print Assumptions C09_C11_bookkeeping.
Print Assumptions C11_C15_weighted_selection.
