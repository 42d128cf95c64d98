(** Theorems on runs: C25, C26, C27, C47, C48, C49, C60 (first part). *)
From Verif Require Import PBase SRun PRunLoop PRunAll.
Open Scope Z_scope.
Open Scope list_scope.

Lemma zrange_split lo m hi : lo <= m + 1 -> m <= hi -> zrange lo hi = zrange lo m ++ zrange (m + 1) hi.
Proof.
  intros H1 H2. replace hi with (m + Z.of_nat (Z.to_nat (hi - m))) by lia. generalize (Z.to_nat (hi - m)) as k. induction k as [|k IH].
  - rewrite (zrange_empty (m + 1)) by lia. rewrite app_nil_r. f_equal. lia.
  - rewrite (zrange_snoc lo), (zrange_snoc (m + 1)) by lia. replace (m + Z.of_nat (S k) - 1) with (m + Z.of_nat k) by lia. rewrite IH, <- app_assoc. reflexivity.
Qed.
Section Runs.
Context {St : Type} (B : @backend St) (env : list (@call St) -> outcome Z).
Notation call := (@call St).

Lemma setups_facts traj nA s : (forall k, registered k (setups B traj nA s) = []) /\ states (setups B traj nA s) = [] /\ frames (setups B traj nA s) = (if traj then [atStep B s 0] else []) /\
  (forall c, In c (setups B traj nA s) -> ~ isCleanup c) /\ (forall k m t x, ~ In (CEvaluate k m t x) (setups B traj nA s)) /\ ~ In CPropagate (setups B traj nA s).
Proof using Type.
  assert (G : forall c, In c (map (fun k => CSetup k (bk_time B s) s : call) (zrange 0 (nA - 1))) -> exists k, c = CSetup k (bk_time B s) s) by (intros c Hc; apply in_map_iff in Hc; destruct Hc as (k & <- & _); eauto).
  unfold setups. split; [|split; [|split; [|split; [|split]]]].
  - intros k. rewrite registered_app. replace (registered k (if traj then _ else _)) with (@nil (Z * Z * St)) by (destruct traj; reflexivity). apply flat_map_nil. intros c Hc. destruct (G c Hc) as (j & ->). reflexivity.
  - rewrite states_app. replace (states (if traj then _ else _)) with (@nil St) by (destruct traj; reflexivity). apply flat_map_nil. intros c Hc. destruct (G c Hc) as (j & ->). reflexivity.
  - rewrite frames_app. replace (frames (map _ _)) with (@nil (Z * Z * St)); [rewrite app_nil_r; destruct traj; reflexivity|]. symmetry. apply flat_map_nil. intros c Hc. destruct (G c Hc) as (j & ->). reflexivity.
  - intros c Hc. apply in_app_or in Hc. destruct Hc as [Hc|Hc]; [destruct traj; [destruct Hc as [<-|[<-|[]]]|destruct Hc]; intros [?|[? ?]]; discriminate|]. destruct (G c Hc) as (j & ->). intros [?|[? ?]]; discriminate.
  - intros k m t x Hc. apply in_app_or in Hc. destruct Hc as [Hc|Hc]; [destruct traj; [destruct Hc as [?|[?|[]]]; discriminate|destruct Hc]|]. destruct (G _ Hc) as (j & ?). discriminate.
  - intros Hc. apply in_app_or in Hc. destruct Hc as [Hc|Hc]; [destruct traj; [destruct Hc as [?|[?|[]]]; discriminate|destruct Hc]|]. destruct (G _ Hc) as (j & ?). discriminate.
Qed.
Lemma cleanup_calls traj nA (c : call) : In c (flushAndFinalise traj nA) -> isCleanup c.
Proof using Type.
  unfold flushAndFinalise. intros Hc. apply in_app_or in Hc. destruct Hc as [Hc|Hc]; [destruct traj; [destruct Hc as [<-|[]]; left; reflexivity|destruct Hc]|]. apply in_map_iff in Hc. destruct Hc as (k & <- & _). right. eauto.
Qed.
Lemma firstn_In {A} n (l : list A) a : In a (firstn n l) -> In a l.
Proof using Type. revert l. induction n as [|n IH]; intros [|x l] H; cbn in H; try destruct H; [left; assumption|right; auto]. Qed.
Lemma only_cleanups (l : list call) : (forall c, In c l -> isCleanup c) -> frames l = [] /\ states l = [] /\ (forall k, registered k l = []) /\ (forall k m t x, ~ In (CEvaluate k m t x) l).
Proof using Type.
  intros H. assert (G : forall c, In c l -> c = CFlush \/ exists k, c = CFinalize k) by exact H. split; [|split; [|split]].
  - apply flat_map_nil. intros c Hc. destruct (G c Hc) as [->|[k ->]]; reflexivity.
  - apply flat_map_nil. intros c Hc. destruct (G c Hc) as [->|[k ->]]; reflexivity.
  - intros j. apply flat_map_nil. intros c Hc. destruct (G c Hc) as [->|[k ->]]; reflexivity.
  - intros k m t x Hc. destruct (G _ Hc) as [E|[j E]]; discriminate.
Qed.

(** The run in terms of its loop. *)
Record ran (ct : control) (traj : bool) (nA nB : Z) (s : St) (w' : world) (o : outcome unit) (n : Z) (seg tail rest : list call) : Prop := {
  ra_avail : bk_avail B s <> 0;
  ra_n : 0 <= n <= Z.max 0 (ct_steps ct);
  ra_log : w_log w' = (setups B traj nA s ++ seg) ++ tail;
  ra_tail : flushAndFinalise traj nA = tail ++ rest;
  ra_inner : forall c, In c seg -> inner c;
  ra_states : states (w_log w') = map (stateAt B s) (zrange 1 n);
  ra_evals : forall k m t x, In (CEvaluate k m t x) (w_log w') -> 0 <= k < nB /\ 1 <= m <= ct_steps ct /\ CEvaluate k m t x = asked B s k m /\ (forall iv, intervals env nB iv -> m mod iv k = 0);
  ra_avails : forall j, 0 <= j < n -> bk_avail B (stateAt B s j) <> 0;
  ra_rest : rest = [] \/ exists e, o = Raise e /\ raised env (w_log w') e;
  ra_ok : o = Ok tt -> rest = [] /\ looped B env ct traj nA nB s 0 (Z.max 0 (ct_steps ct)) (mkWorld (w_st w') (setups B traj nA s ++ seg)) seg n;
  ra_raise : forall e, o = Raise e -> raised env (w_log w') e \/ (rest = [] /\ exists j, 0 <= j < ct_steps ct /\ cause B env ct nB (stateAt B s j) (setups B traj nA s ++ seg) e /\ (n = j \/ n = j + 1)) }.
Lemma run_ran ct traj nA nB s w' o : run B env ct traj nA nB (mkWorld s []) = (w', o) ->
  (exists e, o = Raise e /\ w_st w' = s /\ (exists rest, setups B traj nA s = w_log w' ++ rest) /\ ((bk_avail B s = 0 /\ e = KmcError /\ w_log w' = []) \/ (bk_avail B s <> 0 /\ raised env (w_log w') e))) \/
  exists n seg tail rest, ran ct traj nA nB s w' o n seg tail rest.
Proof using Type.
  intros H. apply run_inv in H. destruct H as [(A & L & S & ->)|[(A & S & e & -> & (n & N1 & L & N2 & E))|(A & w1 & ob & oc & H & S & M & O)]].
  - left. exists KmcError. split; [reflexivity|]. split; [exact S|]. rewrite L. split; [eexists; reflexivity|left; auto].
  - left. exists e. split; [reflexivity|]. split; [exact S|]. split; [|right; auto]. exists (skipn n (setups B traj nA s)). cbn in L. rewrite L. symmetry. apply firstn_skipn.
  - right. destruct (setups_facts traj nA s) as (F1 & F2 & F3 & F4 & F5 & _). apply (loop_all B env ct traj nA nB s) in H; [|lia|reflexivity]. destruct H as (seg & n & N1 & L & I & ST & EV & AV & O'). cbn [w_log] in L.
    destruct M as (m & M1 & LM & OM). set (tail := firstn m (flushAndFinalise traj nA)) in *. exists n, seg, tail, (skipn m (flushAndFinalise traj nA)).
    assert (HT : forall c, In c tail -> isCleanup c) by (intros c Hc; apply firstn_In in Hc; apply cleanup_calls in Hc; exact Hc). destruct (only_cleanups tail HT) as (T1 & T2 & T3 & T4).
    rewrite L in LM. assert (EZ : 0 + Z.of_nat (Z.to_nat (ct_steps ct)) = Z.max 0 (ct_steps ct)) by lia. rewrite EZ in *. constructor; auto.
    + unfold tail. symmetry. apply firstn_skipn.
    + rewrite LM, !states_app, F2, ST, T2, app_nil_r. reflexivity.
    + intros k j t x Hc. rewrite LM in Hc. apply in_app_or in Hc. destruct Hc as [Hc|Hc]; [|exfalso; eapply T4; eauto]. apply in_app_or in Hc. destruct Hc as [Hc|Hc]; [exfalso; eapply F5; eauto|].
      destruct (EV _ _ _ _ Hc) as (K1 & K2 & K3). split; [exact K1|]. split; [lia|exact K3].
    + destruct oc as [[]|e]; [left; subst m; apply skipn_all|right]. exists e. destruct OM. auto.
    + intros Ho. destruct oc as [[]|e]; [|congruence]. subst ob. split; [subst m; apply skipn_all|]. rewrite Ho in O'. destruct O'; constructor; cbn [w_log w_st]; rewrite <- ?L; auto; congruence.
    + intros e Ho. destruct oc as [[]|e']; [|left; destruct OM; congruence]. right. split; [subst m; apply skipn_all|]. subst ob. rewrite Ho in O'. destruct O' as (j & J1 & J2 & J3). exists j. split; [lia|]. rewrite <- L. auto.
Qed.
Lemma ran_frames ct traj nA nB s w' o n seg tail rest : ran ct traj nA nB s w' o n seg tail rest -> frames (w_log w') = (if traj then [atStep B s 0] else []) ++ frames seg /\ (forall k, registered k (w_log w') = registered k seg).
Proof using Type.
  intros R. destruct (setups_facts traj nA s) as (F1 & F2 & F3 & F4 & F5 & _). destruct (only_cleanups tail) as (T1 & T2 & T3 & T4).
  { intros c Hc. apply (cleanup_calls traj nA). rewrite (ra_tail _ _ _ _ _ _ _ _ _ _ _ R). apply in_or_app. left. exact Hc. }
  rewrite (ra_log _ _ _ _ _ _ _ _ _ _ _ R). split; [rewrite !frames_app, F3, T1, app_nil_r; reflexivity|]. intros k. rewrite !registered_app, F1, T3, app_nil_r. reflexivity.
Qed.

(** ** C25 *)
(** A run of N steps that ends normally and in which no breaker said yes: N steps were made, one after the other; with a trajectory the frames are those
    of step 0 and the multiples of dump_interval, in order; every analysis object is called exactly at the multiples of analysis_interval. *)
Theorem C25_counts ct traj nA nB s w' d :
  run B env ct traj nA nB (mkWorld s []) = (w', Ok tt) -> 0 <= ct_steps ct -> ct_dtime ct = None -> ct_dump ct = Some d ->
  (forall k m t x v, answered env (w_log w') (CEvaluate k m t x) (Ok v) -> v = 0) ->
  states (w_log w') = map (stateAt B s) (zrange 1 (ct_steps ct)) /\
  zlen (states (w_log w')) = ct_steps ct /\
  frames (w_log w') = (if traj then map (atStep B s) (0 :: multiples d (ct_steps ct)) else []) /\
  forall k, 0 <= k < nA -> registered k (w_log w') = map (atStep B s) (multiples (ct_analyse ct) (ct_steps ct)).
Proof using Type.
  intros H HN HD HDu HB. destruct (run_ran _ _ _ _ _ _ _ H) as [(e & E & _)|(n & seg & tail & rest & R)]; [discriminate|].
  destruct (ran_frames _ _ _ _ _ _ _ _ _ _ _ R) as [FF RR]. destruct (ra_ok _ _ _ _ _ _ _ _ _ _ _ R eq_refl) as [_ L].
  assert (En : n = ct_steps ct).
  { destruct (ra_n _ _ _ _ _ _ _ _ _ _ _ R) as [N1 N2]. destruct (Z.eq_dec n (ct_steps ct)) as [|Hne]; [assumption|]. exfalso.
    destruct (lo_early _ _ _ _ _ _ _ _ _ _ _ _ L) as (k & v & K1 & K2 & K3); [lia|]. apply K2. cbn [w_log] in K3. unfold asked in K3. eapply HB. rewrite (ra_log _ _ _ _ _ _ _ _ _ _ _ R). apply answered_app. exact K3. }
  subst n. rewrite (ra_states _ _ _ _ _ _ _ _ _ _ _ R). split; [reflexivity|]. split; [unfold zlen; rewrite map_length; change (zlen (zrange 1 (ct_steps ct)) = ct_steps ct); rewrite zlen_zrange; lia|]. split.
  - rewrite FF. destruct (lo_frames _ _ _ _ _ _ _ _ _ _ _ _ L HD) as (d' & D1 & D2). rewrite D2. destruct traj; [|reflexivity]. cbn [app map]. f_equal. unfold multiples. cbn [Z.add].
    destruct (Z.eq_dec 0 (ct_steps ct)) as [E0|E0]; [rewrite <- E0; reflexivity|]. destruct D1 as [D1 _]; [lia|]. assert (d' = d) by congruence. subst d'. reflexivity.
  - intros k Hk. rewrite RR, (lo_regs _ _ _ _ _ _ _ _ _ _ _ _ L). replace ((0 <=? k) && (k <? nA)) with true by (symmetry; apply andb_true_iff; split; [apply Z.leb_le|apply Z.ltb_lt]; lia). reflexivity.
Qed.
(** what a multiple is *)
Theorem C25_multiples d n k : 1 <= d -> In k (multiples d n) <-> 1 <= k <= n /\ (d | k).
Proof using Type. intros Hd. unfold multiples. rewrite filter_In, In_zrange, Z.eqb_eq, Z.mod_divide by lia. reflexivity. Qed.
Theorem C25_multiples_increasing d n i j a b : zget (multiples d n) i = Some a -> zget (multiples d n) j = Some b -> i < j -> a < b.
Proof using Type.
  unfold multiples, zrange. generalize (Z.to_nat (n - 1 + 1)) as c. generalize 1 as lo. intros lo c. revert lo i j. induction c as [|c IH]; intros lo i j H1 H2 Hij; cbn [zseq filter] in *.
  - apply zget_range in H1. unfold zlen in H1. cbn in H1. lia.
  - destruct (lo mod d =? 0); [|eapply IH; eauto]. pose proof (zget_range _ _ _ H1) as [R1 _]. rewrite zget_cons in H2. destruct (Z.eqb_spec j 0); [lia|].
    destruct (Z.eq_dec i 0) as [->|Hi].
    + cbn in H1. injection H1 as <-. apply zget_In in H2. apply filter_In in H2. destruct H2 as [H2 _]. apply In_zseq in H2. lia.
    + rewrite zget_cons in H1. destruct (Z.eqb_spec i 0); [lia|]. eapply IH; eauto. lia.
Qed.

(** ** C26 *)
(** However the run ends: either it fails before the loop (no event available, or creating the trajectory, writing its first frame or setting up an analysis
    object raises), and then nothing is cleaned up and no step was made; or after the loop the trajectory is flushed and then each analysis object is finalised, once
    and in order, and there was no such call before - unless one of these last calls itself raises. *)
Theorem C26_cleanup ct traj nA nB s w' o : run B env ct traj nA nB (mkWorld s []) = (w', o) ->
  (exists e, o = Raise e /\ (forall c, In c (w_log w') -> ~ isCleanup c) /\ ~ In CPropagate (w_log w') /\ (exists rest, setups B traj nA s = w_log w' ++ rest) /\ ((bk_avail B s = 0 /\ e = KmcError) \/ raised env (w_log w') e)) \/
  (exists pre tail rest, w_log w' = pre ++ tail /\ (forall c, In c pre -> ~ isCleanup c) /\ flushAndFinalise traj nA = tail ++ rest /\
     (rest = [] \/ exists e, o = Raise e /\ raised env (w_log w') e)).
Proof using Type.
  intros H. destruct (run_ran _ _ _ _ _ _ _ H) as [(e & -> & _ & (rest & ER) & HR)|(n & seg & tail & rest & R)]; destruct (setups_facts traj nA s) as (F1 & F2 & F3 & F4 & F5 & F6); [left|right].
  - exists e. split; [reflexivity|]. split; [intros c Hc; apply F4; rewrite ER; apply in_or_app; left; exact Hc|]. split; [intros Hc; apply F6; rewrite ER; apply in_or_app; left; exact Hc|]. split; [eauto|].
    destruct HR as [(A & -> & _)|(_ & X)]; auto.
  - exists (setups B traj nA s ++ seg), tail, rest. split; [exact (ra_log _ _ _ _ _ _ _ _ _ _ _ R)|]. split; [|split; [exact (ra_tail _ _ _ _ _ _ _ _ _ _ _ R)|exact (ra_rest _ _ _ _ _ _ _ _ _ _ _ R)]].
    intros c Hc. apply in_app_or in Hc. destruct Hc as [Hc|Hc]; [auto|]. apply inner_not. apply (ra_inner _ _ _ _ _ _ _ _ _ _ _ R). exact Hc.
Qed.

(** ** C27 *)
(** Breakers with intervals iv: whatever happens, breaker k is asked at multiples of iv k only, with the state of that step.  If the run ends normally after n
    steps, then at each multiple before n the answer was no, n < N only if some breaker was due at n and said yes, and no breaker said yes at any other step. *)
Theorem C27_breakers ct traj nA nB s w' o iv : run B env ct traj nA nB (mkWorld s []) = (w', o) -> intervals env nB iv ->
  (forall k m t x, In (CEvaluate k m t x) (w_log w') -> 0 <= k < nB /\ 1 <= m <= ct_steps ct /\ (iv k | m) /\ x = stateAt B s m /\ t = bk_time B x) /\
  (o = Ok tt -> 0 <= ct_steps ct -> exists n, 0 <= n <= ct_steps ct /\ states (w_log w') = map (stateAt B s) (zrange 1 n) /\
     (n < ct_steps ct -> exists k v, 0 <= k < nB /\ (iv k | n) /\ answered env (w_log w') (asked B s k n) (Ok v) /\ v <> 0) /\
     (forall k m, 0 <= k < nB -> 1 <= m < n -> (iv k | m) -> answered env (w_log w') (asked B s k m) (Ok 0)) /\
     (forall k m t x v, answered env (w_log w') (CEvaluate k m t x) (Ok v) -> v <> 0 -> m = n)).
Proof using Type.
  intros H HI. destruct (run_ran _ _ _ _ _ _ _ H) as [(e & -> & _ & (rest & ER) & HR)|(n & seg & tail & rest & R)].
  - split; [|discriminate]. destruct (setups_facts traj nA s) as (_ & _ & _ & _ & F5 & _). intros k m t x Hc. exfalso. apply (F5 k m t x). rewrite ER. apply in_or_app. left. exact Hc.
  - assert (DV : forall k m, 0 <= k < nB -> (m mod iv k = 0 <-> (iv k | m))) by (intros k m Hk; destruct (HI [] k Hk); apply Z.mod_divide; lia). split.
    + intros k m t x Hc. destruct (ra_evals _ _ _ _ _ _ _ _ _ _ _ R _ _ _ _ Hc) as (K1 & K2 & K3 & K4). split; [exact K1|]. split; [exact K2|]. split; [apply DV; auto|]. unfold asked in K3. injection K3 as -> ->. auto.
    + intros Ho HN. destruct (ra_ok _ _ _ _ _ _ _ _ _ _ _ R Ho) as [_ L]. exists n. pose proof (ra_n _ _ _ _ _ _ _ _ _ _ _ R). split; [lia|]. split; [exact (ra_states _ _ _ _ _ _ _ _ _ _ _ R)|].
      destruct (lo_iv _ _ _ _ _ _ _ _ _ _ _ _ L iv HI) as [V1 V2]. cbn [w_log] in *. rewrite (ra_log _ _ _ _ _ _ _ _ _ _ _ R). split; [|split].
      * intros Hn. destruct V1 as (k & v & K1 & K2 & K3 & K4); [lia|]. exists k, v. split; [exact K1|]. split; [apply DV; auto|]. split; [apply answered_app; exact K4|exact K3].
      * intros k m Hk Hm Hd. apply answered_app. apply V2; auto; [lia|]. apply DV; auto.
      * intros k m t x v A Hv. destruct A as (p & q & E & Ev). destruct (setups_facts traj nA s) as (_ & _ & _ & _ & F5 & _).
        destruct (cut_app _ _ _ _ _ E) as [(q' & E')|(p' & -> & E')].
        -- symmetry in E'. destruct (cut_app _ _ _ _ _ (eq_sym E')) as [(q2 & E2)|(p' & -> & E2)]; [exfalso; apply (F5 k m t x); rewrite E2; apply in_or_app; right; left; reflexivity|].
           apply (lo_zero _ _ _ _ _ _ _ _ _ _ _ _ L (setups B traj nA s) eq_refl p' q' k m t x v); auto. rewrite <- app_assoc in Ev. exact Ev.
        -- exfalso. destruct (only_cleanups tail) as (_ & _ & _ & T4); [intros c Hc; apply (cleanup_calls traj nA); rewrite (ra_tail _ _ _ _ _ _ _ _ _ _ _ R); apply in_or_app; left; exact Hc|].
           apply (T4 k m t x). rewrite E'. apply in_or_app. right. left. reflexivity.
Qed.

(** ** C47 *)
(** With positive intervals a run that raises does so because no event was available, or the backend raised, or one of the objects attached to the run raised. *)
Theorem C47_positive_intervals ct traj nA nB s w' e : run B env ct traj nA nB (mkWorld s []) = (w', Raise e) ->
  (ct_dtime ct = None -> exists d, ct_dump ct = Some d /\ 1 <= d) -> 1 <= ct_analyse ct -> (forall pre k, 0 <= k < nB -> env (pre ++ [CInterval k]) <> Ok 0) ->
  (e = KmcError /\ exists j, 0 <= j <= Z.max 0 (ct_steps ct) /\ bk_avail B (stateAt B s j) = 0) \/
  (exists j, 0 <= j < ct_steps ct /\ (snd (bk_propagate B (stateAt B s j)) = Raise e \/ snd (bk_single B (fst (bk_propagate B (stateAt B s j)))) = Raise e)) \/
  (exists c, answered env (w_log w') c (Raise e)).
Proof using Type.
  intros H HD HA HV. assert (NZ : forall l l', raised env l e -> exists c, answered env (l ++ l') c (Raise e)).
  { intros l l' (pre & c & -> & E). exists c. exists pre, l'. rewrite <- app_assoc. auto. }
  destruct (run_ran _ _ _ _ _ _ _ H) as [(e' & E' & _ & (rest & ER) & HR)|(n & seg & tail & rest & R)].
  - injection E' as <-. destruct HR as [(A & -> & _)|(A & X)]; [left; split; [reflexivity|]; exists 0; split; [lia|exact A]|]. right. right. rewrite <- (app_nil_r (w_log w')). auto.
  - destruct (ra_raise _ _ _ _ _ _ _ _ _ _ _ R e eq_refl) as [X|(_ & j & J1 & J2 & J3)]; [right; right; rewrite <- (app_nil_r (w_log w')); auto|].
    destruct J2 as [[A ->]|[C|[C|[C|[[C1 C2]|[[C1 C2]|(k & pre & C1 & C2 & C3)]]]]]].
    + left. split; [reflexivity|]. exists j. split; [lia|exact A].
    + right. left. exists j. auto.
    + right. left. exists j. auto.
    + right. right. rewrite (ra_log _ _ _ _ _ _ _ _ _ _ _ R). auto.
    + destruct (HD C1) as (d & D1 & D2). rewrite D1 in C2. lia.
    + lia.
    + exfalso. eapply HV; eauto.
Qed.

(** ** C48 *)
(** A run that starts at time 0 and whose time increments are never larger than the interval: the frames are equidistant. *)
Theorem C48_time_dump_partial ct nA nB s w' dt : run B env ct true nA nB (mkWorld s []) = (w', Ok tt) -> 0 <= ct_steps ct -> ct_dtime ct = Some dt -> 0 < dt ->
  (forall x, bk_time B (fst (bk_propagate B x)) = bk_time B (bstep B x)) ->
  bk_time B s = 0 -> (forall j, 0 <= j < ct_steps ct -> 0 <= bk_time B (stateAt B s (j + 1)) - bk_time B (stateAt B s j) <= dt) ->
  exists n fs, states (w_log w') = map (stateAt B s) (zrange 1 n) /\ frames (w_log w') = atStep B s 0 :: fs /\ equidistant B s dt n fs.
Proof using Type.
  intros H HN HD Hd HS H0 HI. destruct (run_ran _ _ _ _ _ _ _ H) as [(e & E & _)|(n & seg & tail & rest & R)]; [discriminate|]. destruct (ran_frames _ _ _ _ _ _ _ _ _ _ _ R) as [FF _].
  apply run_inv in H. destruct H as [(_ & _ & _ & E)|[(_ & _ & e & E & _)|(A & w1 & ob & oc & H & S & M & O)]]; try discriminate. destruct oc as [[]|]; [|discriminate]. subst ob.
  pose proof H as H'. apply (loop_all B env ct true nA nB s) in H; [|lia|reflexivity]. destruct H as (seg1 & n1 & N1 & L1 & _ & ST1 & _ & _ & O1).
  apply (loop_time B env ct nA nB s dt (ct_steps ct)) in H'; auto; try lia; [|rewrite ?stateAt_0, ?H0; lia ..].
  destruct H' as (seg2 & n2 & N2 & L2 & S2 & ST2 & F2 & G2). cbn [w_log] in *. assert (seg2 = seg1) by (eapply app_inv_head; rewrite <- L1, L2; reflexivity). subst seg2.
  assert (seg1 = seg). { destruct M as (m & M1 & LM & ->). rewrite firstn_all in LM. destruct (ra_ok _ _ _ _ _ _ _ _ _ _ _ R eq_refl) as [-> _]. pose proof (ra_log _ _ _ _ _ _ _ _ _ _ _ R) as LR. pose proof (ra_tail _ _ _ _ _ _ _ _ _ _ _ R) as TR.
    rewrite app_nil_r in TR. subst tail. rewrite LM, L1 in LR. apply app_inv_tail in LR. apply app_inv_head in LR. exact LR. } subst seg1.
  assert (n2 = n). { pose proof (ra_states _ _ _ _ _ _ _ _ _ _ _ R) as SR. rewrite (ra_log _ _ _ _ _ _ _ _ _ _ _ R), !states_app, ST2 in SR. destruct (setups_facts true nA s) as (_ & ST0 & _). rewrite ST0 in SR. destruct (only_cleanups tail) as (_ & T2 & _); [intros c Hc; apply (cleanup_calls true nA); rewrite (ra_tail _ _ _ _ _ _ _ _ _ _ _ R); apply in_or_app; left; exact Hc|].
    rewrite T2, app_nil_r in SR. cbn [app] in SR. apply (f_equal (@length _)) in SR. rewrite !map_length in SR. apply (f_equal Z.of_nat) in SR. fold (zlen (zrange (0 + 1) n2)) in SR. fold (zlen (zrange 1 n)) in SR. rewrite !zlen_zrange in SR. pose proof (ra_n _ _ _ _ _ _ _ _ _ _ _ R). lia. } subst n2.
  exists n, (frames seg). split; [exact (ra_states _ _ _ _ _ _ _ _ _ _ _ R)|]. split; [exact FF|]. unfold equidistant. rewrite stateAt_0, H0. split.
  - rewrite Z.sub_0_r. apply Z.div_unique_pos with (r := bk_time B (stateAt B s n) - zlen (frames seg) * dt); lia.
  - intros i t m x E. destruct (G2 _ _ _ _ E) as (Y1 & Y2 & Y3 & Y4). split; [exact Y3|]. split; [exact Y1|]. split; [exact Y2|]. rewrite Z.add_0_l in Y4. cbn [Z.add]. exact Y4.
Qed.

(** ** C60, first part *)
(** No event available: the run raises KMCLib's Error without any call to the trajectory, the analysis objects or the backend. *)
Theorem C60_nothing_available ct traj nA nB s : bk_avail B s = 0 -> run B env ct traj nA nB (mkWorld s []) = (mkWorld s [], Raise KmcError).
Proof using Type. intros A. unfold run, prologue, bind, get. cbn [w_st]. rewrite A. reflexivity. Qed.
(** A run never makes a step from a state without available events, and if it reaches such a state before its last step (and no breaker stops it there) it raises. *)
Theorem C60_stops ct traj nA nB s w' o j : run B env ct traj nA nB (mkWorld s []) = (w', o) -> 0 <= j < ct_steps ct -> bk_avail B (stateAt B s j) = 0 ->
  exists n, 0 <= n <= j /\ states (w_log w') = map (stateAt B s) (zrange 1 n) /\
    (o = Ok tt -> exists k v, 0 <= k < nB /\ answered env (w_log w') (asked B s k n) (Ok v) /\ v <> 0).
Proof using Type.
  intros H Hj A. destruct (run_ran _ _ _ _ _ _ _ H) as [(e & -> & _ & (rest & ER) & _)|(n & seg & tail & rest & R)].
  - exists 0. split; [lia|]. split; [|discriminate]. destruct (setups_facts traj nA s) as (_ & F2 & _). rewrite ER, states_app in F2. apply app_eq_nil in F2. destruct F2 as [-> _]. reflexivity.
  - exists n. pose proof (ra_n _ _ _ _ _ _ _ _ _ _ _ R) as N1. assert (n <= j). { destruct (Z_le_gt_dec n j); [assumption|]. exfalso. apply (ra_avails _ _ _ _ _ _ _ _ _ _ _ R j); [lia|exact A]. }
    split; [lia|]. split; [exact (ra_states _ _ _ _ _ _ _ _ _ _ _ R)|]. intros Ho. destruct (ra_ok _ _ _ _ _ _ _ _ _ _ _ R Ho) as [_ L]. destruct (lo_early _ _ _ _ _ _ _ _ _ _ _ _ L) as (k & v & K1 & K2 & K3); [lia|].
    exists k, v. split; [exact K1|]. split; [|exact K2]. rewrite (ra_log _ _ _ _ _ _ _ _ _ _ _ R). apply answered_app. exact K3.
Qed.

(** ** C49 *)
(** Whatever is attached to a run and whatever the intervals: the states it goes through are the first n of one fixed sequence given by the backend alone. *)
Theorem C49_sequence ct traj nA nB s w' o : run B env ct traj nA nB (mkWorld s []) = (w', o) ->
  exists n, 0 <= n <= Z.max 0 (ct_steps ct) /\ states (w_log w') = map (stateAt B s) (zrange 1 n) /\
    (o = Ok tt -> w_st w' = stateAt B s n /\ ((forall k m t x v, answered env (w_log w') (CEvaluate k m t x) (Ok v) -> v = 0) -> n = Z.max 0 (ct_steps ct))).
Proof using Type.
  intros H. destruct (run_ran _ _ _ _ _ _ _ H) as [(e & -> & _ & (rest & ER) & _)|(n & seg & tail & rest & R)].
  - exists 0. split; [lia|]. split; [|discriminate]. destruct (setups_facts traj nA s) as (_ & F2 & _). rewrite ER, states_app in F2. apply app_eq_nil in F2. destruct F2 as [-> _]. reflexivity.
  - exists n. pose proof (ra_n _ _ _ _ _ _ _ _ _ _ _ R) as N1. split; [lia|]. split; [exact (ra_states _ _ _ _ _ _ _ _ _ _ _ R)|]. intros Ho. destruct (ra_ok _ _ _ _ _ _ _ _ _ _ _ R Ho) as [_ L].
    split; [exact (lo_st _ _ _ _ _ _ _ _ _ _ _ _ L)|]. intros HB. destruct (Z.eq_dec n (Z.max 0 (ct_steps ct))) as [|Hne]; [assumption|]. exfalso.
    destruct (lo_early _ _ _ _ _ _ _ _ _ _ _ _ L) as (k & v & K1 & K2 & K3); [lia|]. apply K2. cbn [w_log] in K3. unfold asked in K3. eapply HB. rewrite (ra_log _ _ _ _ _ _ _ _ _ _ _ R). apply answered_app. exact K3.
Qed.
End Runs.

Section Two.
Context {St : Type} (B : @backend St).
Definition silent (env : list (@call St) -> outcome Z) (l : list (@call St)) : Prop := forall k m t x v, answered env l (CEvaluate k m t x) (Ok v) -> v = 0.
(** Two runs from the same state with different control parameters, trajectories, analysis objects and breakers: one goes through the states of the other and possibly further. *)
Theorem C49_observers env1 env2 ct1 ct2 traj1 traj2 nA1 nA2 nB1 nB2 s w1 w2 o1 o2 :
  run B env1 ct1 traj1 nA1 nB1 (mkWorld s []) = (w1, o1) -> run B env2 ct2 traj2 nA2 nB2 (mkWorld s []) = (w2, o2) ->
  (exists more, states (w_log w1) ++ more = states (w_log w2)) \/ (exists more, states (w_log w2) ++ more = states (w_log w1)).
Proof using Type.
  intros H1 H2. destruct (C49_sequence _ _ _ _ _ _ _ _ _ H1) as (n1 & N1 & -> & _). destruct (C49_sequence _ _ _ _ _ _ _ _ _ H2) as (n2 & N2 & -> & _).
  destruct (Z_le_gt_dec n1 n2); [left; exists (map (stateAt B s) (zrange (n1 + 1) n2))|right; exists (map (stateAt B s) (zrange (n2 + 1) n1))]; rewrite <- map_app; f_equal; symmetry; apply zrange_split; lia.
Qed.
(** Two consecutive runs of N and M steps that end normally, no breaker saying yes, go through the same states as one such run of N + M steps. *)
Theorem C49_split env1 env2 env3 ct1 ct2 ct3 traj1 traj2 traj3 nA1 nA2 nA3 nB1 nB2 nB3 s w1 w2 w3 :
  run B env1 ct1 traj1 nA1 nB1 (mkWorld s []) = (w1, Ok tt) -> run B env2 ct2 traj2 nA2 nB2 (mkWorld (w_st w1) []) = (w2, Ok tt) ->
  run B env3 ct3 traj3 nA3 nB3 (mkWorld s []) = (w3, Ok tt) -> silent env1 (w_log w1) -> silent env2 (w_log w2) -> silent env3 (w_log w3) ->
  0 <= ct_steps ct1 -> 0 <= ct_steps ct2 -> ct_steps ct3 = ct_steps ct1 + ct_steps ct2 ->
  states (w_log w3) = states (w_log w1) ++ states (w_log w2) /\ w_st w3 = w_st w2.
Proof using Type.
  intros H1 H2 H3 S1 S2 S3 P1 P2 P3. destruct (C49_sequence _ _ _ _ _ _ _ _ _ H1) as (n1 & N1 & E1 & X1). destruct (C49_sequence _ _ _ _ _ _ _ _ _ H2) as (n2 & N2 & E2 & X2). destruct (C49_sequence _ _ _ _ _ _ _ _ _ H3) as (n3 & N3 & E3 & X3).
  destruct (X1 eq_refl) as [W1 Y1]. destruct (X2 eq_refl) as [W2 Y2]. destruct (X3 eq_refl) as [W3 Y3]. specialize (Y1 S1). specialize (Y2 S2). specialize (Y3 S3). rewrite Z.max_r in Y1, Y2, Y3 by lia. subst n1 n2 n3. rewrite P3 in *.
  split; [|rewrite W3, W2, W1; apply stateAt_add; lia]. rewrite E1, E2, E3, W1. rewrite (zrange_split 1 (ct_steps ct1)) by lia. rewrite map_app. f_equal.
  replace (ct_steps ct1 + 1) with (1 + ct_steps ct1) by lia. replace (ct_steps ct1 + ct_steps ct2) with (ct_steps ct2 + ct_steps ct1) by lia. rewrite zrange_shift, map_map. apply map_ext_in. intros k Hk. apply In_zrange in Hk. rewrite Z.add_comm. apply stateAt_add; lia.
Qed.
End Two.

(** ** Examples and refutations *)
(** A backend that counts its steps: the state is the number of steps left and the time, each step takes 3 units of time. *)
Definition eB (dt : Z) : @backend (Z * Z) := mkBackend fst snd (fun s => ((fst s, snd s + dt), Ok tt)) (fun s => ((fst s - 1, snd s), Ok tt)).
(** two breakers with intervals 2 and 3, the second says yes at step 6 *)
Definition eEnv : list (@call (Z * Z)) -> outcome Z := fun l => match rev l with CInterval k :: _ => Ok (k + 2) | CEvaluate 1 6 _ _ :: _ => Ok 1 | _ => Ok 0 end.
Definition eQuiet : list (@call (Z * Z)) -> outcome Z := fun l => match rev l with CInterval k :: _ => Ok (k + 2) | _ => Ok 0 end.
(** the analysis object 1 fails at step 4 *)
Definition eFails : list (@call (Z * Z)) -> outcome Z := fun l => match rev l with CInterval k :: _ => Ok (k + 2) | CRegister 1 4 _ _ :: _ => Raise (OtherExn 7) | _ => Ok 0 end.
Definition logOf {A} (x : world (St := Z * Z) * outcome A) := w_log (fst x).
Lemma eQuiet_intervals : intervals eQuiet 2 (fun k => k + 2).
Proof. intros pre k Hk. unfold eQuiet. rewrite rev_unit. split; [reflexivity|lia]. Qed.
Lemma eEnv_intervals : intervals eEnv 2 (fun k => k + 2).
Proof. intros pre k Hk. unfold eEnv. rewrite rev_unit. split; [reflexivity|lia]. Qed.
Example C25_example : let r := run (eB 3) eQuiet (mkControl 7 (Some 3) 2 None) true 2 2 (mkWorld (20, 0) []) in
  snd r = Ok tt /\ map fst (frames (logOf r)) = [(0, 0); (9, 3); (18, 6)] /\ map fst (registered 1 (logOf r)) = [(6, 2); (12, 4); (18, 6)] /\ states (logOf r) = [(19, 3); (18, 6); (17, 9); (16, 12); (15, 15); (14, 18); (13, 21)].
Proof. vm_compute. repeat split. Qed.
Example C26_example : let r := run (eB 3) eFails (mkControl 7 (Some 3) 2 None) true 2 2 (mkWorld (20, 0) []) in
  snd r = Raise (OtherExn 7) /\ skipn 25 (logOf r) = [CFlush; CFinalize 0; CFinalize 1].
Proof. vm_compute. repeat split. Qed.
Example C27_example : let r := run (eB 3) eEnv (mkControl 9 (Some 3) 2 None) true 2 2 (mkWorld (20, 0) []) in
  snd r = Ok tt /\ zlen (states (logOf r)) = 6.
Proof. vm_compute. repeat split. Qed.
Example C60_example : let r := run (eB 3) eQuiet (mkControl 9 (Some 3) 2 None) true 2 2 (mkWorld (4, 0) []) in
  snd r = Raise KmcError /\ zlen (states (logOf r)) = 4.
Proof. vm_compute. repeat split. Qed.

(** C47 is false without the guard: a dump interval or an analysis interval of 0 (both accepted by the constructor, see TControl.v) stops the run with ZeroDivisionError. *)
Theorem C47_zero_interval_refuted : exists (B : @backend (Z * Z)) env s w',
  (forall l, exists v, env l = Ok v) /\ (forall x, snd (bk_propagate B x) = Ok tt /\ snd (bk_single B x) = Ok tt) /\ bk_avail B s <> 0 /\
  run B env (mkControl 7 (Some 0) 1 None) false 0 0 (mkWorld s []) = (w', Raise ZeroDivision) /\ exists w2, run B env (mkControl 7 (Some 1) 0 None) false 0 0 (mkWorld s []) = (w2, Raise ZeroDivision).
Proof.
  exists (eB 3), eQuiet, (20, 0). eexists. split; [|split; [|split; [|split]]].
  - intros l. unfold eQuiet. destruct (rev l) as [|[]]; eauto.
  - intros x. split; reflexivity.
  - discriminate.
  - vm_compute. reflexivity.
  - eexists. vm_compute. reflexivity.
Qed.

(** C48 is false without its hypotheses: when a step takes longer than the interval there is one frame for several intervals, *)
Theorem C48_long_step_refuted : exists (B : @backend (Z * Z)) env s w' n, run B env (mkControl 3 None 1 (Some 2)) true 0 0 (mkWorld s []) = (w', Ok tt) /\
  (forall x, bk_time B (fst (bk_propagate B x)) = bk_time B (bstep B x)) /\ bk_time B s = 0 /\ states (w_log w') = map (stateAt B s) (zrange 1 n) /\ ~ exists fs, frames (w_log w') = atStep B s 0 :: fs /\ equidistant B s 2 n fs.
Proof.
  exists (eB 5), eQuiet, (20, 0). eexists. exists 3. split; [vm_compute; reflexivity|]. split; [reflexivity|]. split; [reflexivity|]. split; [vm_compute; reflexivity|]. intros (fs & E & H & _). vm_compute in E. injection E as <-. vm_compute in H. discriminate.
Qed.
(** and in a second run of the same model, which starts at a later time, although all steps are shorter than the interval. *)
Theorem C48_second_run_refuted : exists (B : @backend (Z * Z)) env s w1 w2 n,
  run B env (mkControl 5 None 1 (Some 2)) true 0 0 (mkWorld s []) = (w1, Ok tt) /\ run B env (mkControl 4 None 1 (Some 2)) true 0 0 (mkWorld (w_st w1) []) = (w2, Ok tt) /\ bk_time B s = 0 /\
  (forall x, bk_time B (fst (bk_propagate B x)) = bk_time B (bstep B x) /\ bk_time B (bstep B x) - bk_time B x = 1) /\
  states (w_log w2) = map (stateAt B (w_st w1)) (zrange 1 n) /\ ~ exists fs, frames (w_log w2) = atStep B (w_st w1) 0 :: fs /\ equidistant B (w_st w1) 2 n fs.
Proof.
  exists (eB 1), eQuiet, (20, 0). eexists. eexists. exists 4. split; [vm_compute; reflexivity|]. split; [vm_compute; reflexivity|]. split; [reflexivity|]. split; [intros [a b]; cbn; lia|]. split; [vm_compute; reflexivity|].
  intros (fs & E & H & _). vm_compute in E. injection E as <-. vm_compute in H. discriminate.
Qed.
Example C48_example : let r := run (eB 3) eQuiet (mkControl 7 None 2 (Some 5)) true 2 2 (mkWorld (20, 0) []) in
  snd r = Ok tt /\ map fst (frames (logOf r)) = [(0, 0); (3, 1); (9, 3); (12, 4); (18, 6)].
Proof. vm_compute. repeat split. Qed.
Example C49_example : let r1 := run (eB 3) eQuiet (mkControl 2 None 2 (Some 5)) true 2 2 (mkWorld (20, 0) []) in let r2 := run (eB 3) eEnv (mkControl 3 (Some 1) 2 None) false 1 0 (mkWorld (w_st (fst r1)) []) in
  let r3 := run (eB 3) eEnv (mkControl 5 (Some 2) 5 None) true 3 1 (mkWorld (20, 0) []) in snd r1 = Ok tt /\ snd r2 = Ok tt /\ snd r3 = Ok tt /\ states (logOf r3) = states (logOf r1) ++ states (logOf r2).
Proof. vm_compute. repeat split. Qed.

Print Assumptions C25_counts. Print Assumptions C25_multiples. Print Assumptions C25_multiples_increasing. Print Assumptions C26_cleanup. Print Assumptions C27_breakers. Print Assumptions C47_positive_intervals.
Print Assumptions C47_zero_interval_refuted. Print Assumptions C48_time_dump_partial. Print Assumptions C48_long_step_refuted. Print Assumptions C48_second_run_refuted. Print Assumptions C49_sequence. Print Assumptions C49_observers. Print Assumptions C49_split.
Print Assumptions C60_nothing_available. Print Assumptions C60_stops.
