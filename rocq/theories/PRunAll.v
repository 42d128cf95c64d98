(** The loop, the clean-up and the whole run. *)
From Verif Require Import PBase SRun PRunLoop.
Open Scope Z_scope.
Open Scope list_scope.

Section All.
Context {St : Type} (B : @backend St) (env : list (@call St) -> outcome Z).
Notation call := (@call St).
Notation answered := (answered env).
Notation atStep := (atStep B). Notation asked := (asked B). Notation intervals := (intervals env). Notation setups := (setups B). Notation cleanups := flushAndFinalise.
Lemma stepped_S n : forall s, stepped B (S n) s = bstep B (stepped B n s).
Proof using Type. induction n as [|n IH]; intros s; [reflexivity|]. change (stepped B (S (S n)) s) with (stepped B (S n) (bstep B s)). rewrite IH. reflexivity. Qed.
Lemma stateAt_0 s : stateAt B s 0 = s. Proof using Type. reflexivity. Qed.
Lemma stateAt_S s k : 0 <= k -> stateAt B s (k + 1) = bstep B (stateAt B s k).
Proof using Type. intros H. unfold stateAt. replace (Z.to_nat (k + 1)) with (S (Z.to_nat k)) by lia. apply stepped_S. Qed.
Lemma stepped_add n m : forall s, stepped B (n + m) s = stepped B m (stepped B n s).
Proof using Type. induction n as [|n IH]; intros s; [reflexivity|]. cbn. apply IH. Qed.
Lemma stateAt_add s a b : 0 <= a -> 0 <= b -> stateAt B s (a + b) = stateAt B (stateAt B s a) b.
Proof using Type. intros H1 H2. unfold stateAt. rewrite Z2Nat.inj_add by lia. apply stepped_add. Qed.

Record looped (ct : control) (traj : bool) (nA nB : Z) (s0 : St) (step top : Z) (w' : world) (seg : list call) (n : Z) : Prop := {
  lo_st : w_st w' = stateAt B s0 n;
  lo_frames : ct_dtime ct = None -> exists d, (step < n -> ct_dump ct = Some d /\ d <> 0) /\
     frames seg = if traj then map (atStep s0) (filter (fun k => k mod d =? 0) (zrange (step + 1) n)) else [];
  lo_regs : forall k, registered k seg = if (0 <=? k) && (k <? nA) then map (atStep s0) (filter (fun k => k mod ct_analyse ct =? 0) (zrange (step + 1) n)) else [];
  lo_early : n < top -> exists k v, 0 <= k < nB /\ v <> 0 /\ answered (w_log w') (asked s0 k n) (Ok v);
  lo_iv : forall iv, intervals nB iv ->
     (n < top -> exists k v, 0 <= k < nB /\ n mod iv k = 0 /\ v <> 0 /\ answered (w_log w') (asked s0 k n) (Ok v)) /\
     (forall k m, 0 <= k < nB -> step < m < n -> m mod iv k = 0 -> answered (w_log w') (asked s0 k m) (Ok 0));
  lo_avail : forall j, step <= j < n -> bk_avail B (stateAt B s0 j) <> 0;
  lo_fine : forall j, step <= j < n -> snd (bk_propagate B (stateAt B s0 j)) = Ok tt /\ snd (bk_single B (fst (bk_propagate B (stateAt B s0 j)))) = Ok tt;
  lo_analyse : step < n -> ct_analyse ct <> 0;
  lo_zero : forall base, w_log w' = base ++ seg -> forall p q k m t s v, seg = p ++ CEvaluate k m t s :: q -> env (base ++ p ++ [CEvaluate k m t s]) = Ok v -> v <> 0 -> m = n }.

Lemma iteration_none ct traj nA nB step ts last w : bk_avail B (w_st w) = 0 -> iteration B env ct traj nA nB step ts last w = (w, Raise KmcError).
Proof using Type. intros A. unfold iteration, bind, get. rewrite A. reflexivity. Qed.
Lemma loop_all ct traj nA nB s0 : forall fuel step ts last w w' o, 0 <= step -> w_st w = stateAt B s0 step -> loop B env ct traj nA nB fuel step ts last w = (w', o) ->
  exists seg n, step <= n <= step + Z.of_nat fuel /\ w_log w' = w_log w ++ seg /\ (forall c, In c seg -> inner c) /\ states seg = map (stateAt B s0) (zrange (step + 1) n) /\
    (forall k m t s, In (CEvaluate k m t s) seg -> 0 <= k < nB /\ step < m <= step + Z.of_nat fuel /\ CEvaluate k m t s = asked s0 k m /\ (forall iv, intervals nB iv -> m mod iv k = 0)) /\
    (forall j, step <= j < n -> bk_avail B (stateAt B s0 j) <> 0) /\
    match o with
    | Raise e => exists j, step <= j < step + Z.of_nat fuel /\ cause B env ct nB (stateAt B s0 j) (w_log w') e /\ (n = j \/ n = j + 1)
    | Ok _ => looped ct traj nA nB s0 step (step + Z.of_nat fuel) w' seg n
    end.
Proof using Type.
  induction fuel as [|fuel IH]; intros step ts last w w' o Hs Hw H.
  - cbn in H. injection H as <- <-. exists [], step. rewrite app_nil_r, (zrange_empty (step + 1)) by lia. split; [lia|]. split; [reflexivity|]. split; [intros c []|]. split; [reflexivity|]. split; [intros k m t s []|]. split; [intros; lia|].
    constructor; try (intros; lia); auto.
    + intros _. exists 1. split; [lia|]. rewrite zrange_empty by lia. destruct traj; reflexivity.
    + intros k. rewrite zrange_empty by lia. destruct (_ && _); reflexivity.
    + intros iv _. split; intros; lia.
    + intros base _ p q k m t s v E. destruct p; discriminate.
  - cbn [loop] in H. apply bind_inv in H. destruct H as [(w1 & r & H1 & H)|(e & H1 & ->)]; pose proof H1 as HI1; apply iteration_inv in H1; destruct H1 as (seg1 & L1 & I1 & E1 & P1).
    2:{ destruct P1 as [C1 ST1]. destruct E1 as [E1 E2]. rewrite Hw in *.
        assert (G : forall k m t s, In (CEvaluate k m t s) seg1 -> 0 <= k < nB /\ step < m <= step + Z.of_nat (S fuel) /\ CEvaluate k m t s = asked s0 k m /\ (forall iv, intervals nB iv -> m mod iv k = 0)).
        { intros k m t s Hc. destruct (E1 _ _ _ _ Hc) as (K1 & -> & -> & ->). split; [exact K1|]. split; [lia|]. split; [unfold SRun.asked; rewrite stateAt_S by lia; reflexivity|]. intros iv HI. eapply E2; eauto. }
        destruct ST1 as [ST1|ST1].
        - exists seg1, step. rewrite (zrange_empty (step + 1)) by lia. split; [lia|]. split; [exact L1|]. split; [exact I1|]. split; [exact ST1|]. split; [exact G|]. split; [intros; lia|]. exists step. split; [lia|]. split; [exact C1|]. auto.
        - exists seg1, (step + 1). rewrite zrange_cons, zrange_empty by lia. cbn [map]. rewrite stateAt_S by lia. split; [lia|]. split; [exact L1|]. split; [exact I1|]. split; [exact ST1|]. split; [exact G|]. split; [|exists step; split; [lia|]; split; [exact C1|auto]].
          intros j Hj A. replace j with step in A by lia. rewrite <- Hw in A. rewrite (iteration_none ct traj nA nB _ ts last w A) in HI1. injection HI1 as <- _. rewrite <- (app_nil_r (w_log w)) in L1 at 1. apply app_inv_head in L1. subst seg1. discriminate. }
    destruct r as [[b ts1] l1]. pose proof (pa_st _ _ _ _ _ _ _ _ _ _ _ _ _ P1) as S1. rewrite Hw, <- stateAt_S in S1 by lia.
    assert (EB : bstep B (w_st w) = stateAt B s0 (step + 1)) by (rewrite Hw, <- stateAt_S by lia; reflexivity).
    destruct E1 as [E1 E2].
    assert (G : forall k m t s, In (CEvaluate k m t s) seg1 -> 0 <= k < nB /\ m = step + 1 /\ CEvaluate k m t s = asked s0 k m /\ (forall iv, intervals nB iv -> m mod iv k = 0)).
    { intros k m t s Hc. destruct (E1 _ _ _ _ Hc) as (K1 & -> & -> & ->). split; [exact K1|]. split; [lia|]. rewrite EB. split; [reflexivity|]. intros iv HI. eapply E2; eauto. }
    destruct P1 as [Q1 Q2 Q3 _ Q5 Q6 Q7 Q8 Q9 _ _ Q12 QZ Q13]. cbn [fst snd] in *. rewrite EB in *.
    assert (D1 : ct_dtime ct = None -> exists d, ct_dump ct = Some d /\ d <> 0 /\ frames seg1 = if traj then if (step + 1) mod d =? 0 then [atStep s0 (step + 1)] else [] else []).
    { intros ED. destruct (Q7 ED) as (d & D1 & D2). exists d. split; [exact D1|]. split; [exact D2|]. rewrite Q6. unfold frameOf, SRun.atStep. rewrite ED, D1, EB. reflexivity. }
    assert (R1 : forall k, registered k seg1 = if (0 <=? k) && (k <? nA) then if (step + 1) mod ct_analyse ct =? 0 then [atStep s0 (step + 1)] else [] else []).
    { intros k. rewrite Q8. unfold SRun.atStep. destruct ((step + 1) mod ct_analyse ct =? 0), ((0 <=? k) && (k <? nA)); reflexivity. }
    destruct b.
    + injection H as <- <-. exists seg1, (step + 1). rewrite (zrange_cons (step + 1)), (zrange_empty (step + 1 + 1)) by lia. split; [lia|]. split; [exact L1|]. split; [exact I1|]. split; [exact Q5|]. split.
      { intros k m t s Hc. destruct (G _ _ _ _ Hc) as (K1 & -> & K2). split; [exact K1|]. split; [lia|exact K2]. }
      split; [intros j Hj; replace j with step by lia; rewrite <- Hw; exact Q1|].
      constructor; try (intros; replace j with step by lia); rewrite <- ?Hw; auto.
      * intros ED. destruct (D1 ED) as (d & X1 & X2 & X3). exists d. split; [auto|]. rewrite X3. rewrite (zrange_cons (step + 1)), (zrange_empty (step + 1 + 1)) by lia. cbn [filter]. destruct traj, ((step + 1) mod d =? 0); reflexivity.
      * intros k. rewrite R1. rewrite (zrange_cons (step + 1)), (zrange_empty (step + 1 + 1)) by lia. cbn [filter]. destruct ((0 <=? k) && (k <? nA)), ((step + 1) mod ct_analyse ct =? 0); reflexivity.
      * intros iv HI. destruct (Q13 iv HI) as (V1 & V2 & V3). split; [intros _; apply V2; reflexivity|intros; lia].
      * intros base _ p q k m t s v -> _ _. destruct (G k m t s) as (_ & -> & _); [apply in_or_app; right; left; reflexivity|reflexivity].
    + apply IH in H; [|lia|exact S1]. destruct H as (seg2 & n & N1 & L2 & I2 & ST2 & G2 & AV2 & O2). exists (seg1 ++ seg2), n. split; [lia|]. split; [rewrite L2, L1, <- app_assoc; reflexivity|]. split; [apply inner_app; assumption|].
      split; [rewrite states_app, Q5, ST2, (zrange_cons (step + 1)) by lia; reflexivity|]. split.
      { intros k m t s Hc. apply in_app_or in Hc. destruct Hc as [Hc|Hc]; [destruct (G _ _ _ _ Hc) as (K1 & -> & K2)|destruct (G2 _ _ _ _ Hc) as (K1 & K3 & K2)]; (split; [exact K1|]; split; [lia|exact K2]). }
      split; [intros j Hj; destruct (Z.eq_dec j step) as [->|]; [rewrite <- Hw; exact Q1|apply AV2; lia]|].
      destruct o as [[]|e].
      * replace (step + 1 + Z.of_nat fuel) with (step + Z.of_nat (S fuel)) in O2 by lia. destruct O2 as [U1 U2 U3 U4 U5 U6 U7 U8 U9]. constructor; auto.
        -- intros ED. destruct (D1 ED) as (d & X1 & X2 & X3). exists d. split; [auto|]. destruct (U2 ED) as (d' & Y1 & Y2). rewrite frames_app, X3, Y2, (zrange_cons (step + 1)) by lia. cbn [filter].
           destruct traj; [|reflexivity]. destruct (Z.eq_dec (step + 1) n) as [En|En]; [rewrite !(zrange_empty (step + 1 + 1)) by lia; cbn; rewrite app_nil_r; destruct ((step + 1) mod d =? 0); reflexivity|].
           destruct Y1 as [Y1 _]; [lia|]. assert (d' = d) by congruence. subst d'. destruct ((step + 1) mod d =? 0); reflexivity.
        -- intros k. rewrite registered_app, R1, U3, (zrange_cons (step + 1)) by lia. cbn [filter]. destruct ((0 <=? k) && (k <? nA)); [|reflexivity]. destruct ((step + 1) mod ct_analyse ct =? 0); reflexivity.
        -- intros iv HI. destruct (U5 iv HI) as (V1 & V2). split; [exact V1|]. destruct (Q13 iv HI) as (_ & _ & V3). intros k m Hk Hm HZ. destruct (Z.eq_dec m (step + 1)) as [->|]; [|apply V2; auto; lia].
           rewrite L2. apply answered_app. apply V3; auto.
        -- intros j Hj. destruct (Z.eq_dec j step) as [->|]; [rewrite <- Hw; exact Q1|apply U6; lia].
        -- intros j Hj. destruct (Z.eq_dec j step) as [->|]; [rewrite <- Hw; auto|apply U7; lia].
        -- intros base LB p q k m t s v E Ev Hv. assert (LB' : base = w_log w) by (apply (app_inv_tail (seg1 ++ seg2)); rewrite <- LB, L2, L1, <- app_assoc; reflexivity). subst base.
           destruct (cut_app _ _ _ _ _ E) as [(q' & ->)|(p' & -> & ->)]; [exfalso; apply Hv; eapply (QZ eq_refl); [reflexivity|exact Ev]|].
           apply (U9 (w_log w ++ seg1)) with (p := p') (q := q) (k := k) (t := t) (s := s) (v := v); auto; [rewrite L2, L1; reflexivity|]. rewrite <- !app_assoc in *. exact Ev.
      * destruct O2 as (j & J1 & J2 & J3). exists j. split; [lia|]. auto.
Qed.

(** setting up, and cleaning up *)
(** a list of calls made one after the other until one of them raises *)
Definition madeUntil (todo : list call) (l l' : list call) (o : outcome unit) : Prop :=
  exists n, (n <= length todo)%nat /\ l' = l ++ firstn n todo /\ match o with Ok _ => n = length todo | Raise e => (0 < n)%nat /\ raised env l' e end.
Lemma madeUntil_each c ks w w' o : each (fun k => bind (ask env (c k)) (fun _ => ret tt)) ks w = (w', o) -> w_st w' = w_st w /\ madeUntil (map c ks) (w_log w) (w_log w') o.
Proof using Type.
  intros H. apply each_inv in H. destruct H as (S & n & N1 & L & _ & O). split; [exact S|]. exists n. rewrite map_length, firstn_map. auto.
Qed.
Lemma madeUntil_cons c todo l l' o : (exists v, env (l ++ [c]) = Ok v) -> madeUntil todo (l ++ [c]) l' o -> madeUntil (c :: todo) l l' o.
Proof using Type.
  intros [v _] (n & N1 & -> & O). exists (S n). cbn [length firstn]. split; [lia|]. split; [rewrite <- app_assoc; reflexivity|]. destruct o; [lia|]. destruct O. split; [lia|assumption].
Qed.
Lemma madeUntil_raise c todo l e : env (l ++ [c]) = Raise e -> madeUntil (c :: todo) l (l ++ [c]) (Raise e).
Proof using Type. intros H. exists 1%nat. cbn. split; [lia|]. split; [reflexivity|]. split; [lia|apply raised_last; exact H]. Qed.
Lemma cleanup_inv traj nA w w' o : cleanup env traj nA w = (w', o) -> w_st w' = w_st w /\ madeUntil (cleanups traj nA) (w_log w) (w_log w') o.
Proof using Type.
  intros H. unfold cleanup in H. apply bind_inv in H. unfold flushAndFinalise. destruct traj.
  - destruct H as [(w1 & u & H1 & H)|(e & H1 & ->)]; apply bind_inv in H1.
    + destruct H1 as [(w2 & v & H1 & H2)|(e & H1 & H2)]; [|discriminate]. injection H2 as -> _. apply ask_inv in H1. destruct H1 as (S1 & L1 & O1). apply madeUntil_each in H. destruct H as (S2 & M). split; [congruence|].
      cbn [app]. apply madeUntil_cons; [eauto|]. rewrite <- L1. exact M.
    + destruct H1 as [(w2 & v & H1 & H2)|(e' & H1 & H2)]; [discriminate|]. injection H2 as <-. apply ask_inv in H1. destruct H1 as (S1 & L1 & O1). split; [exact S1|]. rewrite L1. cbn [app]. apply madeUntil_raise. auto.
  - destruct H as [(w1 & u & H1 & H)|(e & H1 & ->)]; [|discriminate]. injection H1 as <- _. apply madeUntil_each in H. exact H.
Qed.
Lemma prologue_inv traj nA w w' o : prologue B env traj nA w = (w', o) -> w_st w' = w_st w /\
  ((bk_avail B (w_st w) = 0 /\ w' = w /\ o = Raise KmcError) \/ (bk_avail B (w_st w) <> 0 /\ madeUntil (setups traj nA (w_st w)) (w_log w) (w_log w') o)).
Proof using Type.
  intros H. unfold prologue in H. apply bind_inv in H. destruct H as [(w1 & s & H1 & H)|(e & H1 & ->)]; unfold get in H1; [|discriminate]. injection H1 as <- <-.
  destruct (Z.eqb_spec (bk_avail B (w_st w)) 0) as [A0|A0]; [unfold throw in H; injection H as <- <-; auto|].
  apply bind_inv in H. unfold SRun.setups. destruct traj.
  - destruct H as [(w1 & u & H1 & H)|(e & H1 & ->)]; apply bind_inv in H1.
    + destruct H1 as [(w2 & v & H1 & H2)|(e & H1 & H2)]; [|discriminate]. apply ask_inv in H1. destruct H1 as (S1 & L1 & O1). apply bind_inv in H2. destruct H2 as [(w3 & v2 & H1 & H2)|(e & H1 & H2)]; [|discriminate]. injection H2 as -> _.
      apply ask_inv in H1. destruct H1 as (S2 & L2 & O2). apply madeUntil_each in H. destruct H as (S3 & M). split; [congruence|]. right. split; [exact A0|]. cbn [app]. apply madeUntil_cons; [eauto|]. rewrite <- L1. apply madeUntil_cons; [eauto|]. rewrite <- L2. exact M.
    + destruct H1 as [(w2 & v & H1 & H2)|(e' & H1 & H2)].
      * apply ask_inv in H1. destruct H1 as (S1 & L1 & O1). apply bind_inv in H2. destruct H2 as [(w3 & v2 & H1 & H2)|(e' & H1 & H2)]; [discriminate|]. injection H2 as <-. apply ask_inv in H1. destruct H1 as (S2 & L2 & O2).
        split; [congruence|]. right. split; [exact A0|]. cbn [app]. apply madeUntil_cons; [eauto|]. rewrite <- L1, L2. apply madeUntil_raise. auto.
      * injection H2 as <-. apply ask_inv in H1. destruct H1 as (S1 & L1 & O1). split; [exact S1|]. right. split; [exact A0|]. rewrite L1. cbn [app]. apply madeUntil_raise. auto.
  - destruct H as [(w1 & u & H1 & H)|(e & H1 & ->)]; [|discriminate]. injection H1 as <- _. apply madeUntil_each in H. destruct H as (S & M). split; [exact S|]. right. auto.
Qed.

(** the whole run *)
Lemma run_inv ct traj nA nB s w' o : run B env ct traj nA nB (mkWorld s []) = (w', o) ->
  (bk_avail B s = 0 /\ w_log w' = [] /\ w_st w' = s /\ o = Raise KmcError) \/
  (bk_avail B s <> 0 /\ w_st w' = s /\ exists e, o = Raise e /\ madeUntil (setups traj nA s) [] (w_log w') (Raise e)) \/
  (bk_avail B s <> 0 /\ exists w1 ob oc, loop B env ct traj nA nB (Z.to_nat (ct_steps ct)) 0 0 (bk_time B s) (mkWorld s (setups traj nA s)) = (w1, ob) /\
     w_st w' = w_st w1 /\ madeUntil (cleanups traj nA) (w_log w1) (w_log w') oc /\ o = match oc with Ok _ => ob | Raise e => Raise e end).
Proof using Type.
  intros H. unfold run in H. apply bind_inv in H. destruct H as [(w1 & s' & H1 & H)|(e & H1 & ->)]; unfold get in H1; [|discriminate]. injection H1 as <- <-. cbn [w_st] in *.
  apply bind_inv in H. destruct H as [(w2 & u & H1 & H)|(e & H1 & ->)]; apply prologue_inv in H1; cbn [w_st w_log] in *; destruct H1 as (S1 & [(A & -> & O)|(A & M)]).
  - discriminate.
  - right. right. split; [exact A|]. destruct M as (n & N1 & L & ->). rewrite firstn_all in L. cbn in L. assert (w2 = mkWorld s (setups traj nA s)) by (destruct w2; cbn in *; congruence). subst w2.
    unfold tryFinally in H. destruct (loop B env ct traj nA nB (Z.to_nat (ct_steps ct)) 0 0 (bk_time B s) (mkWorld s (setups traj nA s))) as [w1 ob]. destruct (cleanup env traj nA w1) as [w2 oc] eqn:EC. apply cleanup_inv in EC. destruct EC as (S2 & M).
    exists w1, ob, oc. split; [reflexivity|]. destruct oc; injection H as <- <-; auto.
  - left. injection O as ->. auto.
  - right. left. split; [exact A|]. split; [exact S1|]. eauto.
Qed.
End All.

(** time-based dumping *)
Section Time.
Context {St : Type} (B : @backend St) (env : list (@call St) -> outcome Z).
Notation T s0 j := (bk_time B (stateAt B s0 j)).
Lemma loop_time ct nA nB s0 dt top : (forall s, bk_time B (fst (bk_propagate B s)) = bk_time B (bstep B s)) -> ct_dtime ct = Some dt -> 0 < dt -> (forall j, 0 <= j < top -> 0 <= T s0 (j + 1) - T s0 j <= dt) ->
  forall fuel step ts last w w', 0 <= step -> step + Z.of_nat fuel = top -> w_st w = stateAt B s0 step -> last = ts * dt -> ts * dt <= T s0 step < (ts + 1) * dt -> loop B env ct true nA nB fuel step ts last w = (w', Ok tt) ->
  exists seg n, step <= n <= top /\ w_log w' = w_log w ++ seg /\ w_st w' = stateAt B s0 n /\ states seg = map (stateAt B s0) (zrange (step + 1) n) /\ (ts + zlen (frames seg)) * dt <= T s0 n < (ts + zlen (frames seg) + 1) * dt /\
    forall i t m s, zget (frames seg) i = Some (t, m, s) -> t = T s0 m /\ s = fst (bk_propagate B (stateAt B s0 m)) /\ step <= m < n /\ T s0 m < (ts + i + 1) * dt <= T s0 (m + 1).
Proof using Type.
  intros HT ED Hd HI. induction fuel as [|fuel IH]; intros step ts last w w' Hs Htop Hw Hl Hb H.
  - cbn in H. injection H as <-. exists [], step. rewrite app_nil_r. split; [lia|]. split; [reflexivity|]. split; [exact Hw|]. split; [rewrite zrange_empty by lia; reflexivity|]. change (zlen (frames (@nil (@call St)))) with 0. split; [rewrite Z.add_0_r; exact Hb|]. intros i t m s E. apply zget_range in E. unfold zlen in E. cbn in E. lia.
  - cbn [loop] in H. apply bind_inv in H. destruct H as [(w1 & r & H1 & H)|(e & H1 & ?)]; [|discriminate]. apply iteration_inv in H1. destruct H1 as (seg1 & L1 & I1 & E1 & P1).
    destruct r as [[b ts1] l1]. pose proof (pa_st _ _ _ _ _ _ _ _ _ _ _ _ _ P1) as S1. rewrite Hw, <- stateAt_S in S1 by lia.
    pose proof (pa_frames _ _ _ _ _ _ _ _ _ _ _ _ _ P1) as F1. pose proof (pa_last _ _ _ _ _ _ _ _ _ _ _ _ _ P1) as LL. cbn [fst snd] in LL. pose proof (pa_states _ _ _ _ _ _ _ _ _ _ _ _ _ P1) as STS. rewrite Hw, <- stateAt_S in STS by lia. clear P1 E1 I1.
    unfold frameOf in F1. unfold lastOf in LL. rewrite ED in *. rewrite HT, Hw, <- stateAt_S in * by lia. pose proof (HI step ltac:(lia)) as Hi.
    replace (step + 1 - 1) with step in F1 by lia. set (d := dt <=? T s0 (step + 1) - last) in *.
    assert (X : ts1 = ts + zlen (frames seg1) /\ l1 = ts1 * dt /\ ts1 * dt <= T s0 (step + 1) < (ts1 + 1) * dt /\ (forall i t m s, zget (frames seg1) i = Some (t, m, s) -> t = T s0 m /\ s = fst (bk_propagate B (stateAt B s0 m)) /\ m = step /\ i = 0 /\ T s0 m < (ts + i + 1) * dt <= T s0 (m + 1))).
    { rewrite F1. unfold d in *. destruct (Z.leb_spec dt (T s0 (step + 1) - last)) as [Hd'|Hd']; injection LL as -> ->.
      - split; [reflexivity|]. split; [reflexivity|]. split; [nia|]. intros i t m s E. destruct (zget_range _ _ _ E) as [R1 R2]. unfold zlen in R2. cbn in R2. assert (i = 0) by lia. subst i. cbn in E. injection E as <- <- <-. repeat split; auto; nia.
      - split; [unfold zlen; cbn; lia|]. split; [exact Hl|]. split; [nia|]. intros i t m s E. apply zget_range in E. unfold zlen in E. cbn in E. lia. }
    destruct X as (-> & -> & X3 & X4). destruct b.
    + injection H as <-. exists seg1, (step + 1). split; [lia|]. split; [exact L1|]. split; [exact S1|]. split; [rewrite zrange_cons, zrange_empty by lia; exact STS|]. split; [exact X3|]. intros i t m s E. destruct (X4 _ _ _ _ E) as (Y1 & Y2 & -> & -> & Y5). repeat split; auto; lia.
    + apply IH in H; [|lia|lia|exact S1|reflexivity|exact X3]. destruct H as (seg2 & n & N1 & L2 & S2 & ST2 & F2 & G2). exists (seg1 ++ seg2), n. split; [lia|]. split; [rewrite L2, L1, <- app_assoc; reflexivity|]. split; [exact S2|]. split; [rewrite states_app, STS, ST2, (zrange_cons (step + 1)) by lia; reflexivity|].
      rewrite frames_app, zlen_app, Z.add_assoc. split; [exact F2|]. intros i t m s E. destruct (zget_range _ _ _ E) as [R1 R2]. destruct (Z_lt_dec i (zlen (frames seg1))) as [Hlt|Hge].
      * rewrite zget_app_l in E by lia. destruct (X4 _ _ _ _ E) as (Y1 & Y2 & -> & -> & Y5). repeat split; auto; lia.
      * rewrite zget_app_r in E by lia. destruct (G2 _ _ _ _ E) as (Y1 & Y2 & Y3 & Y4). split; [exact Y1|]. split; [exact Y2|]. split; [lia|]. replace (ts + i + 1) with (ts + zlen (frames seg1) + (i - zlen (frames seg1)) + 1) by lia. exact Y4.
Qed.
End Time.
